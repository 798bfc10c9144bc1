(** Lemmas about saved survey tables. *)
From Coq Require Import Reals String Ascii List Bool Arith Lia Lra.
From Verif Require Import Base BaseFacts RealBase ObsTableModel ObsTableProps ObsTableMore NoiseModel FakeModel FakeProps SurveyModel SurveyProps ZtfProps RomanModel ObsFileModel.
Import ListNotations.
Open Scope string_scope.
Open Scope list_scope.
Open Scope nat_scope.

Lemma put_same : forall p x fs, put p x fs p = Some x.
Proof. intros. unfold put. now rewrite String.eqb_refl. Qed.
Lemma put_other : forall p x fs q, q <> p -> put p x fs q = fs q.
Proof. intros p x fs q H. unfold put. destruct (String.eqb_spec q p); congruence. Qed.

(** ** Renaming a table that has standard names already *)
Definition inverse (cm : dict string) : dict string := fold_left (fun a kv => dset (snd kv) (fst kv) a) cm [].
Definition no_source (cm : dict string) (f : frame) : Prop := forall key v, In (key, v) cm -> key <> v -> ~ In v (columns f).
Lemma remap_fold_plain : forall cols cm nm inv, (forall c, dmem c nm = true -> In c cols) -> (forall c, target nm c = c) ->
  (forall key v, In (key, v) cm -> key <> v -> ~ In v cols) ->
  exists nm', fold_res (remap_step cols) (nm, inv) cm = Ok (nm', fold_left (fun a kv => dset (snd kv) (fst kv) a) cm inv) /\ (forall c, target nm' c = c).
Proof.
  intros cols cm. induction cm as [|[k v] cm IH]; intros nm inv HM HT HP.
  - exists nm. split; auto.
  - cbn [fold_res remap_step fold_left fst snd]. destruct (dmem v nm) eqn:EV.
    + assert (KV : k = v).
      { destruct (string_dec k v) as [|NE]; auto. exfalso. apply (HP k v (or_introl eq_refl) NE). auto. }
      subst k. rewrite String.eqb_refl. cbn [negb]. rewrite andb_false_r.
      apply IH.
      * intros c. rewrite dmem_dset. intros H. apply orb_prop in H. destruct H as [H|H]; [apply String.eqb_eq in H; subst c|]; auto.
      * intros c. unfold target. rewrite dget_dset. destruct (String.eqb c v) eqn:E; [apply String.eqb_eq in E; auto|apply HT].
      * intros key w HI. apply HP. now right.
    + apply IH; auto. intros key w HI. apply HP. now right.
Qed.
Lemma rename_same : forall A nm (d : dict A), (forall c, target nm c = c) -> rename_cols nm d = d.
Proof.
  intros A nm d H. unfold rename_cols. rewrite <- (map_id d) at 2. apply map_ext. intros [c x]. cbn [fst snd].
  change (match dget c nm with Some k => k | None => c end) with (target nm c). now rewrite H.
Qed.
Lemma dmem_self : forall cols c, dmem c (map (fun c => (c, c)) cols) = true -> In c cols.
Proof. intros cols c H. apply dmem_true in H. unfold dkeys in H. rewrite map_map in H. cbn [fst] in H. now rewrite map_id in H. Qed.
Lemma remap_plain : forall cm f, no_source cm f -> remap (Some cm) f = Ok (f, inverse cm).
Proof.
  intros cm f H. unfold remap. cbv zeta.
  destruct (remap_fold_plain (columns f) cm (map (fun c => (c, c)) (columns f)) []) as (nm & E & T); auto using dmem_self, target_id.
  match goal with |- context [fold_res ?a ?b ?c] => replace (fold_res a b c) with (Ok (nm, inverse cm)) by (symmetry; exact E) end.
  cbn [bind fst snd]. rewrite rename_same by exact T. destruct f. reflexivity.
Qed.
Lemma remap_inverse_fold : forall cols cm nm inv st, fold_res (remap_step cols) (nm, inv) cm = Ok st ->
  snd st = fold_left (fun a kv => dset (snd kv) (fst kv) a) cm inv.
Proof.
  intros cols cm. induction cm as [|[k v] cm IH]; intros nm inv st H; cbn [fold_res remap_step fold_left fst snd] in *; [now injection H as <-|].
  destruct (dmem v nm); [destruct (_ && _)%bool; [discriminate|]|]; eapply IH; exact H.
Qed.
Lemma remap_inverse : forall cm f f' inv, remap (Some cm) f = Ok (f', inv) -> inv = inverse cm.
Proof.
  intros cm f f' inv H. unfold remap in H. cbv zeta in H. destruct (fold_res _ _ cm) as [st|] eqn:E; [|discriminate]. cbn [bind] in H. injection H as <- <-.
  apply (remap_inverse_fold _ _ _ _ _ E).
Qed.

(** ** The survey classes *)
Definition survey_class (k : klass) : Prop := k = base_class \/ k = opsim_class \/ exists mjd, k = ztf_class mjd.
(** A class's constructor, given the remapped table. *)
Lemma kmake_base : forall f cm meta kw fp, kmake base_class f cm meta kw fp = ob_make f cm meta kw fp.
Proof.
  intros f cm meta kw fp. unfold kmake, base_class. cbn [k_defaults k_zero k_prep k_map]. unfold survey_make, ob_make.
  replace (remap (Some (match cm with None => [] | Some c => c end)) f) with (remap cm f) by (destruct cm; reflexivity).
  destruct (remap cm f) as [[f' inv]|]; [|reflexivity]. cbn [bind]. destruct (forallb _ required); [|reflexivity]. cbn [negb]. cbv zeta.
  destruct (ob_contains _ "zp"); reflexivity.
Qed.
Lemma kmake_opsim : forall f cm meta kw fp, kmake opsim_class f cm meta kw fp = opsim_make f cm meta kw fp.
Proof. reflexivity. Qed.
Lemma kmake_ztf : forall mjd f cm meta kw fp, kmake (ztf_class mjd) f cm meta kw fp = ztf_make mjd f cm meta kw fp.
Proof. reflexivity. Qed.

(** What zero points do to a table. *)
Definition whole (f : frame) : Prop := frame_ok f /\ forall c, In c required -> In c (columns f).
Record zeroed (o o' : obstable) : Prop := {
  z_whole : whole (ob_frame o');
  z_inv : ob_inv o' = ob_inv o;
  z_values : ob_values o' = ob_values o;
  z_fp : ob_footprint o' = ob_footprint o;
  z_cols : forall c, In c (columns (ob_frame o')) -> c = "zp" \/ In c (columns (ob_frame o))
}.
Lemma zeroed_refl : forall o, whole (ob_frame o) -> zeroed o o.
Proof. intros o W. split; auto. Qed.
Lemma add_zp : forall o vals o', whole (ob_frame o) -> add_column o "zp" vals true = Ok o' -> zeroed o o' /\ In "zp" (columns (ob_frame o')).
Proof.
  intros o vals o' [F Q] H. unfold add_column in H. cbv zeta in H. rewrite andb_false_r in H. destruct (_ =? _)%nat eqn:E; [|discriminate]. apply Nat.eqb_eq in E.
  injection H as <-. split.
  - split; cbn [ob_frame ob_inv ob_values ob_footprint]; auto.
    + split; [split|].
      * unfold columns. cbn [f_cols]. apply NoDup_dset. apply F.
      * apply dset_cols_Forall; [apply F|exact E].
      * intros c Hc. unfold columns. cbn [f_cols]. apply In_dkeys_dset. right. now apply Q.
    + intros c Hc. unfold columns in Hc. cbn [f_cols] in Hc. apply In_dkeys_dset in Hc. exact Hc.
  - unfold columns. cbn [ob_frame f_cols]. apply In_dkeys_dset. now left.
Qed.
Lemma clean_whole : forall f, whole f -> whole (ztf_clean f) /\ columns (ztf_clean f) = columns f.
Proof.
  intros f [[F1 F2] Q]. unfold ztf_clean. cbv zeta.
  set (f1 := mkFrame (f_labels f) (map (fun kc => (fst kc, map blank (snd kc))) (f_cols f))).
  assert (C1 : columns f1 = columns f) by (unfold columns, dkeys, f1; cbn [f_cols]; rewrite map_map; reflexivity).
  assert (O1 : frame_ok f1).
  { split; [now rewrite C1|]. unfold f1, nrows. cbn [f_cols f_labels]. rewrite Forall_map. cbn [snd].
    eapply Forall_impl; [|exact F2]. intros kc H. rewrite map_length. exact H. }
  match goal with |- context [mask_frame ?m f1] => pose proof (mask_frame_ok m f1 O1) as M; assert (CM : columns (mask_frame m f1) = columns f) end.
  { unfold columns at 1. unfold mask_frame. cbn [f_cols]. rewrite dkeys_mask. exact C1. }
  split; auto. split; auto. intros c Hc. rewrite CM. auto.
Qed.
Lemma class_zero : forall k o o', survey_class k -> whole (ob_frame o) -> k_zero k o = Ok o' ->
  zeroed o o' /\ (k <> base_class -> In "zp" (columns (ob_frame o'))).
Proof.
  intros k o o' [-> | [-> | (mjd & ->)]] W H; cbn [k_zero base_class opsim_class ztf_class] in H.
  - injection H as <-. split; [now apply zeroed_refl|congruence].
  - unfold opsim_zero_points in H. cbv zeta in H. destruct (negb _); [discriminate|]. destruct (safe_map _ "ext_coeff"); [|discriminate]. cbn [bind] in H.
    destruct (safe_map _ "zp_per_sec"); [|discriminate]. cbn [bind] in H. destruct (vec_flux_zeropoint _ _ _ _ _); [|discriminate]. cbn [bind] in H.
    destruct (add_zp _ _ _ W H). auto.
  - unfold ztf_zero_points in H. cbv zeta in H. destruct (negb _); [discriminate|]. destruct (clean_whole _ W) as [W1 C1].
    apply add_zp in H; [|exact W1]. destruct H as [[A1 A2 A3 A4 A5] B]. cbn [ob_frame ob_inv ob_values ob_footprint] in *. rewrite C1 in A5. split; auto. split; auto.
Qed.
Lemma prep_ok : forall k f, survey_class k -> frame_ok f -> frame_ok (k_prep k f).
Proof. intros k f [-> | [-> | (mjd & ->)]] F; cbn [k_prep base_class opsim_class ztf_class]; auto. now apply (dated_ok mjd). Qed.
Lemma class_defaults : forall k, survey_class k -> NoDup (dkeys (k_defaults k)).
Proof. intros k [-> | [-> | (mjd & ->)]]; cbn; repeat constructor; simpl; intuition discriminate. Qed.

Record made (k : klass) (cm : dict string) (f : frame) (meta kw : dict sval) (fp : option footprint) (o : obstable) : Prop := {
  md_tinv : tinv o;
  md_inv : ob_inv o = inverse cm;
  md_values : ob_values o = survey_values (k_defaults k) meta kw;
  md_fp : ob_footprint o = fp;
  md_zp : k <> base_class -> In "zp" (columns (ob_frame o)) \/ (exists key, dget "zp" (inverse cm) = Some key /\ In key (columns (ob_frame o)));
  md_cols : exists f', remap (Some cm) (k_prep k f) = Ok (f', inverse cm) /\ (forall c, In c (columns (ob_frame o)) -> c = "zp" \/ In c (columns f'))
}.
Lemma kmake_made : forall k f cm meta kw fp o, survey_class k -> frame_ok f -> (forall d, cm = Some d -> NoDup (dkeys d)) -> NoDup (dkeys (k_map k)) ->
  kmake k f cm meta kw fp = Ok o -> made k (match cm with None => k_map k | Some c => c end) f meta kw fp o.
Proof.
  intros k f cm meta kw fp o K F ND NK H. unfold kmake in H. set (m := match cm with None => k_map k | Some c => c end) in *.
  assert (NM : NoDup (dkeys m)) by (unfold m; destruct cm as [c|]; [now apply ND|exact NK]).
  unfold survey_make in H. destruct (remap (Some m) (k_prep k f)) as [[f' inv]|] eqn:ER; [|discriminate]. cbn [bind] in H.
  destruct (forallb _ required) eqn:EQ; [|discriminate]. cbn [negb] in H. cbv zeta in H.
  destruct (remap_ok _ _ _ _ (prep_ok k f K F) (some_nodup _ _ NM) ER) as (F' & _ & _).
  pose proof (remap_inverse _ _ _ _ ER). subst inv.
  assert (W : whole f') by (split; auto; intros c Hc; rewrite forallb_forall in EQ; apply smem_In; now apply EQ).
  set (b := mkObs f' (inverse m) (survey_values (k_defaults k) meta kw) (unique_filters f') [] fp) in *.
  assert (X : exists o1, (if ob_contains b "zp" then Ok b else k_zero k b) = Ok o1 /\ o = mkObs (ob_frame o1) (ob_inv o1) (ob_values o1) (ob_filters o1) (build_tree (ob_frame o1)) (ob_footprint o1)).
  { destruct (if ob_contains b "zp" then Ok b else k_zero k b) as [o1|] eqn:E; [|discriminate]. exists o1. split; auto. cbn [bind] in H. now injection H as <-. }
  destruct X as (o1 & E1 & ->).
  assert (Z : zeroed b o1 /\ (k <> base_class -> In "zp" (columns (ob_frame o1)) \/ (exists key, dget "zp" (inverse m) = Some key /\ In key (columns (ob_frame o1))))).
  { destruct (ob_contains b "zp") eqn:EZ.
    - injection E1 as <-. split; [now apply zeroed_refl|]. intros _. unfold ob_contains in EZ. apply orb_prop in EZ. destruct EZ as [EZ|EZ].
      + left. now apply dmem_true in EZ.
      + right. unfold b in EZ. cbn [ob_inv ob_frame] in EZ. destruct (dget "zp" (inverse m)) as [key|]; [|discriminate]. exists key. split; auto. now apply dmem_true in EZ.
    - destruct (class_zero k b o1 K W E1) as [A B]. split; auto. }
  destruct Z as [[A1 A2 A3 A4 A5] B]. unfold b in *. cbn [ob_frame ob_inv ob_values ob_footprint] in *. split; cbn [ob_frame ob_inv ob_values ob_footprint ob_tree]; auto.
  - destruct A1 as [A1 A1']. split; auto.
  - exists f'. auto.
Qed.

(** ** The values of a table *)
Definition all_values (df : dict sval) (d : dict sval) : Prop := NoDup (dkeys d) /\ forall k, In k (dkeys df) -> In k (dkeys d).
Lemma fold_dset_all : forall (l df d : dict sval), all_values df d -> all_values df (fold_left (fun acc kv => dset (fst kv) (snd kv) acc) l d).
Proof.
  induction l as [|[k v] l IH]; intros df d H; cbn [fold_left]; auto. apply IH. destruct H as [H1 H2]. split; [now apply NoDup_dset|].
  intros k' Hk. apply In_dkeys_dset. right. auto.
Qed.
Lemma survey_values_all : forall df meta kw, NoDup (dkeys df) -> all_values df (survey_values df meta kw).
Proof. intros df meta kw H. unfold survey_values. apply fold_dset_all, fold_dset_all. split; auto. Qed.
Lemma saved_values : forall df d k, all_values df d -> dget k (survey_values df d []) = dget k d.
Proof.
  intros df d k [H1 H2]. rewrite survey_value_get by (auto; constructor). unfold value_given. cbn [dget]. destruct (dget k d) eqn:E; auto.
  destruct (dget k df) eqn:E2; auto. exfalso. apply dget_None in E. apply E, H2. apply (dget_keys _ k df). congruence.
Qed.

(** ** What a user can do with a table *)
Inductive held (k : klass) : obstable -> Prop :=
| held_make : forall f cm meta kw fp o, frame_ok f -> (forall d, cm = Some d -> NoDup (dkeys d)) -> kmake k f cm meta kw fp = Ok o -> held k o
| held_add : forall o name v ow o', held k o -> name <> "ra" -> name <> "dec" -> add_column o name v ow = Ok o' -> held k o'
| held_const : forall o name c b o', held k o -> assign_constant o name c = Ok (b, o') -> held k o'
| held_filter : forall o r o', held k o -> filter_rows o r = Ok o' -> held k o'
| held_radius : forall o r o', held k o -> set_radius o r = Ok o' -> held k o'.
Lemma add_column_shape : forall o name v ow o', add_column o name v ow = Ok o' -> exists vals, length vals = nrows (ob_frame o) /\
  o' = mkObs (mkFrame (f_labels (ob_frame o)) (dset name vals (f_cols (ob_frame o)))) (ob_inv o) (ob_values o) (ob_filters o) (ob_tree o) (ob_footprint o).
Proof.
  intros o name v ow o' H. unfold add_column in H. cbv zeta in H. destruct (_ && _)%bool; [discriminate|]. destruct (_ =? _)%nat eqn:E; [|discriminate].
  apply Nat.eqb_eq in E. injection H as <-. eexists. split; [exact E|reflexivity].
Qed.
Lemma filter_shape : forall o r o', filter_rows o r = Ok o' -> exists m, length m = nrows (ob_frame o) /\
  o' = mkObs (mask_frame m (ob_frame o)) (ob_inv o) (ob_values o) (ob_filters o) (build_tree (mask_frame m (ob_frame o))) (ob_footprint o).
Proof.
  intros o r o' H. unfold filter_rows in H. cbv zeta in H. destruct r as [m|l].
  - destruct (_ =? _)%nat eqn:E; [|discriminate]. apply Nat.eqb_eq in E. injection H as <-. exists m. auto.
  - destruct (index_mask _ _) as [m|] eqn:E; [|discriminate]. cbn [bind] in H. injection H as <-. exists m. split; auto.
    unfold index_mask in E. destruct l; [discriminate|]. destruct (forallb _ _); [|discriminate]. injection E as <-. rewrite map_length, seq_length. reflexivity.
Qed.
Lemma held_inv : forall k o, survey_class k -> NoDup (dkeys (k_map k)) -> held k o -> tinv o /\ all_values (k_defaults k) (ob_values o).
Proof.
  intros k o K NK H. induction H.
  - destruct (kmake_made _ _ _ _ _ _ _ K H H0 NK H1) as [A1 A2 A3 A4 A5 A6]. split; auto. rewrite A3. apply survey_values_all. now apply class_defaults.
  - destruct IHheld as [T V]. pose proof (add_column_inv _ _ _ _ _ T H0 H1 H2) as T'. split; auto.
    apply add_column_shape in H2. destruct H2 as (vals & _ & ->). exact V.
  - destruct IHheld as [T V]. destruct (assign_constant_inv _ _ _ _ _ T H0) as [T' [-> | (vals & _ & _ & HA)]]; [auto|]. split; auto.
    apply add_column_shape in HA. destruct HA as (vals' & _ & ->). exact V.
  - destruct IHheld as [T V]. split; [eapply filter_rows_inv; eauto|]. apply filter_shape in H0. destruct H0 as (m & _ & ->). exact V.
  - destruct IHheld as [[T1 T2 T3] V]. unfold set_radius in H0. destruct (Rleb r 0); [discriminate|]. injection H0 as <-. split; [split; auto|]. cbn [ob_values].
    destruct V as [V1 V2]. split; [now apply NoDup_dset|]. intros k' Hk. apply In_dkeys_dset. right. auto.
Qed.
Lemma class_nodup : forall k, survey_class k -> NoDup (dkeys (k_map k)).
Proof. intros k [-> | [-> | (mjd & ->)]]; cbn; repeat constructor; simpl; intuition discriminate. Qed.
