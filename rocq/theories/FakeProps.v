(** C71: the simplified survey table. *)
From Coq Require Import Reals String List Bool Arith Lia Lra.
From Verif Require Import Base BaseFacts RealBase ObsTableModel ObsTableProps ObsTableMore NoiseModel NoiseProps FakeModel.
Import ListNotations.
Open Scope R_scope.

(** ** Specification vocabulary *)
(** The number a user gave for row [i]: the table's own column if it has one, else the argument, which is one number
    or one number per filter. *)
Definition user_value (o : obstable) (name : string) (arg : sval) (i : nat) : option R :=
  if dmem name (f_cols (ob_frame o)) then num_at o name i
  else match cell_at o "filter" i with Some (CStr s) => value_for arg s | _ => None end.
(** Every row names its filter. *)
Definition has_filters (o : obstable) : Prop :=
  forall i, (i < nrows (ob_frame o))%nat -> exists s, cell_at o "filter" i = Some (CStr s).
(** [o'] is [o] with columns added. *)
Record grows (o o' : obstable) : Prop := {
  gr_labels : f_labels (ob_frame o') = f_labels (ob_frame o);
  gr_values : ob_values o' = ob_values o;
  gr_filters : ob_filters o' = ob_filters o;
  gr_inv : ob_inv o' = ob_inv o;
  gr_tree : ob_tree o' = ob_tree o;
  gr_fp : ob_footprint o' = ob_footprint o;
  gr_cells : forall c i, In c (columns (ob_frame o)) -> cell_at o' c i = cell_at o c i;
  gr_cols : forall c, In c (columns (ob_frame o)) -> In c (columns (ob_frame o'))
}.
Lemma grows_refl : forall o, grows o o.
Proof. split; auto. Qed.
Lemma grows_trans : forall a b c, grows a b -> grows b c -> grows a c.
Proof.
  intros a b c [A1 A2 A3 A4 A5 A6 A7 A8] [B1 B2 B3 B4 B5 B6 B7 B8]. split; try congruence; auto.
  intros n i Hi. rewrite B7 by auto. auto.
Qed.
Lemma grows_nrows : forall o o', grows o o' -> nrows (ob_frame o') = nrows (ob_frame o).
Proof. intros o o' G. unfold nrows. now rewrite (gr_labels _ _ G). Qed.
Lemma add_grows : forall o name v ow o', dmem name (f_cols (ob_frame o)) = false -> add_column o name v ow = Ok o' ->
  grows o o' /\ In name (columns (ob_frame o')) /\ forall c, In c (columns (ob_frame o')) -> c = name \/ In c (columns (ob_frame o)).
Proof.
  intros o name v ow o' HM H. unfold add_column in H. rewrite HM in H. cbn [andb] in H. cbv zeta in H.
  destruct (_ =? _)%nat; [|discriminate]. injection H as <-. split; [|split].
  - split; cbn [ob_frame f_labels ob_values ob_filters ob_inv ob_tree ob_footprint]; auto.
    + intros c i Hc. unfold cell_at. cbn [ob_frame f_cols]. rewrite dget_dset_other; auto. intros ->.
      apply dmem_false in HM. now apply HM.
    + intros c Hc. unfold columns. cbn [f_cols]. apply In_dkeys_dset. auto.
  - unfold columns. cbn [ob_frame f_cols]. apply In_dkeys_dset. auto.
  - intros c Hc. unfold columns in Hc. cbn [ob_frame f_cols] in Hc. now apply In_dkeys_dset in Hc.
Qed.
Lemma not_required : forall o name, tinv o -> dmem name (f_cols (ob_frame o)) = false -> name <> "ra"%string /\ name <> "dec"%string.
Proof. intros o name T D. split; intros ->; rewrite required_never_missing in D; try discriminate; auto; simpl; auto. Qed.

Definition covers (o : obstable) : Prop := forall i s, cell_at o "filter" i = Some (CStr s) -> In s (ob_filters o).
Lemma grows_covers : forall o o', grows o o' -> In "filter"%string (columns (ob_frame o)) -> covers o -> covers o'.
Proof. intros o o' G HF C i s H. rewrite (gr_filters _ _ G). rewrite (gr_cells _ _ G) in H by auto. eapply C; eauto. Qed.
Lemma has_filters_col : forall o, has_filters o -> (0 < nrows (ob_frame o))%nat -> In "filter"%string (columns (ob_frame o)).
Proof.
  intros o H L. destruct (H 0%nat L) as (s & E). unfold cell_at in E. destruct (dget "filter" (f_cols (ob_frame o))) eqn:ED; [|discriminate].
  apply dget_keys. congruence.
Qed.

(** What one added constant column holds. *)
Lemma assign_spec : forall o name cp o', tinv o -> covers o -> assign_constant o name cp = Ok (true, o') ->
  grows o o' /\ tinv o' /\ In name (columns (ob_frame o')) /\
  (forall c, In c (columns (ob_frame o')) -> c = name \/ In c (columns (ob_frame o))) /\
  (forall i s val, dget name (ob_values o) = Some val -> cell_at o "filter" i = Some (CStr s) ->
     num_at o' name i = user_value o name val i /\
     (dmem name (f_cols (ob_frame o)) = false -> exists v, value_for val s = Some v /\ (cp = true -> 0 < v))).
Proof.
  intros o name cp o' T C H. destruct (dmem name (f_cols (ob_frame o))) eqn:EM.
  - unfold assign_constant in H. rewrite EM in H. injection H as <-. split; [apply grows_refl|]. split; auto.
    split; [now apply dmem_true|]. split; [auto|]. intros i s val _ _. unfold user_value. rewrite EM. split; auto. discriminate.
  - destruct (assign_constant_inv _ _ _ _ _ T H) as (T' & [->|(v & N1 & N2 & EA)]).
    { exfalso. unfold assign_constant in H. rewrite EM in H. cbv zeta in H.
      assert (X : forall m, bind (fold_res (fun vals fil => match dget fil m with
        | None => Err ValueError
        | Some v => if (cp && Rleb v 0)%bool then Err ValueError else Ok (set_where fil v (filter_cells (ob_frame o)) vals)
        end) (repeat 0 (nrows (ob_frame o))) (ob_filters o)) (fun vals =>
        bind (add_column o name (ColList (map CNum vals)) false) (fun o' => Ok (true, o'))) <> Ok (true, o)).
      { intros m HM. match type of HM with bind ?X _ = _ => destruct X as [vals|] end; [|discriminate]. cbn [bind] in HM.
        destruct (add_column o name (ColList (map CNum vals)) false) as [o1|] eqn:EA; [|discriminate]. cbn [bind] in HM.
        injection HM as ->. apply add_grows in EA; auto. destruct EA as (_ & I & _). apply dmem_true in I. congruence. }
      destruct (dget name (ob_values o)) as [[| | |]|]; try discriminate; try (now apply X in H).
      destruct (ob_filters o); [now apply X in H|discriminate]. }
    destruct (add_grows _ _ _ _ _ EM EA) as (G & I & OC). split; auto. split; auto. split; auto. split; auto.
    intros i s val EV HF. unfold user_value. rewrite EM, HF. destruct val as [|r|m|t].
    + exfalso. unfold assign_constant in H. rewrite EM, EV in H. discriminate.
    + destruct (constant_column_inv o name cp o' (SNum r) T EM EV) as [A _]; try discriminate; auto.
      destruct (A i s HF (C _ _ HF)) as (x & E1 & E2 & E3). split; [congruence|eauto].
    + destruct (constant_column_inv o name cp o' (SMap m) T EM EV) as [A _]; try discriminate; auto.
      destruct (A i s HF (C _ _ HF)) as (x & E1 & E2 & E3). split; [congruence|eauto].
    + exfalso. unfold assign_constant in H. rewrite EM, EV in H. pose proof (C _ _ HF) as HI.
      destruct (ob_filters o); [destruct HI|discriminate].
Qed.
Lemma needs_ok : forall o name cp o', needs o name cp = Ok o' <-> assign_constant o name cp = Ok (true, o').
Proof.
  intros. unfold needs. destruct (assign_constant o name cp) as [[b o1]|]; cbn [bind fst snd]; [|split; discriminate].
  destruct b; split; intros H; inversion H; subst; auto.
Qed.

(** ** The zero points *)
Lemma zp_fill : forall cells m vals vals', length vals = length cells -> NoDup (dkeys m) ->
  fold_res (fun vals kv => if Rleb (snd kv) 0 then Err ValueError else Ok (set_where (fst kv) (snd kv) cells vals)) vals m = Ok vals' ->
  length vals' = length cells /\ (forall fil v, dget fil m = Some v -> 0 < v) /\
  forall i s, nth_error cells i = Some (CStr s) ->
    nth_error vals' i = match dget s m with Some v => Some v | None => nth_error vals i end.
Proof.
  induction m as [|[fil v] m IH]; intros vals vals' HL ND H.
  - simpl in H. injection H as <-. split; auto. split; [discriminate|auto].
  - cbn [fold_res fst snd] in H. destruct (Rleb v 0) eqn:EV; [discriminate|]. apply Rleb_false in EV. inversion ND; subst.
    assert (L2 : length (set_where fil v cells vals) = length cells) by (unfold set_where; rewrite map_length, combine_length; lia).
    destruct (IH _ _ L2 H3 H) as (I1 & I2 & I3). split; auto. split.
    + intros f w HD. cbn [dget] in HD. destruct (String.eqb f fil); [congruence|eauto].
    + intros i s Hi. rewrite (I3 i s Hi). cbn [dget].
      destruct (nth_error vals i) as [x|] eqn:EX.
      2:{ exfalso. apply nth_error_None in EX. assert ((i < length cells)%nat) by (apply nth_error_Some; congruence). lia. }
      destruct (set_where_spec fil v cells vals i s x Hi EX HL) as [EW _]. rewrite EW.
      destruct (String.eqb s fil) eqn:ES; [|destruct (dget s m); reflexivity].
      apply String.eqb_eq in ES. subst s. replace (dget fil m) with (@None R); auto. symmetry. now apply dget_None.
Qed.
Lemma zp_fill_accepts : forall cells m vals,
  ((exists vals', fold_res (fun vals kv => if Rleb (snd kv) 0 then Err ValueError else Ok (set_where (fst kv) (snd kv) cells vals)) vals m = Ok vals') <->
   Forall (fun kv : string * R => 0 < snd kv) m) /\
  (forall e, fold_res (fun vals kv => if Rleb (snd kv) 0 then Err ValueError else Ok (set_where (fst kv) (snd kv) cells vals)) vals m = Err e -> e = ValueError).
Proof.
  induction m as [|[fil v] m IH]; intros vals; cbn [fold_res fst snd].
  - split; [|discriminate]. split; [constructor|eauto].
  - destruct (Rleb v 0) eqn:EV.
    + apply Rleb_true in EV. split; [|congruence]. split; [intros [x H]; discriminate|]. intros H. inversion H; subst. simpl in *. lra.
    + apply Rleb_false in EV. destruct (IH (set_where fil v cells vals)) as [I1 I2]. split; auto. rewrite I1. split; [constructor; auto|].
      intros H. now inversion H.
Qed.
Lemma cells_len : forall o, tinv o -> In "filter"%string (columns (ob_frame o)) -> length (filter_cells (ob_frame o)) = nrows (ob_frame o).
Proof.
  intros o T HF. unfold filter_cells. apply dget_keys in HF. destruct (dget "filter" (f_cols (ob_frame o))) as [c|] eqn:EC; [|congruence].
  destruct (ti_frame o T) as [_ F]. rewrite Forall_forall in F. now apply (F ("filter"%string, c)), dget_In.
Qed.
Lemma filter_cell_nth : forall o i s, cell_at o "filter" i = Some (CStr s) -> nth_error (filter_cells (ob_frame o)) i = Some (CStr s).
Proof. intros o i s H. unfold filter_cells. unfold cell_at in H. now destruct (dget "filter" (f_cols (ob_frame o))). Qed.

(** The table between construction and the addition of columns: the plain table of the same data with this class's
    survey values. *)
Definition based (f : frame) (cm : option (dict string)) (meta : dict sval) (a : fake_args) (fp : option footprint) (o : obstable) : Prop :=
  exists o0, ob_make f cm meta [] fp = Ok o0 /\
    o = mkObs (ob_frame o0) (ob_inv o0) (fake_values meta a) (ob_filters o0) (ob_tree o0) fp.
Lemma frame_only : forall o v t fl c i, cell_at (mkObs (ob_frame o) (ob_inv o) v fl t (ob_footprint o)) c i = cell_at o c i.
Proof. reflexivity. Qed.
Lemma build_tree_dset : forall l name v d, name <> "ra"%string -> name <> "dec"%string ->
  build_tree (mkFrame l (dset name v d)) = build_tree (mkFrame l d).
Proof. intros. unfold build_tree. now rewrite !num_col_dset by auto. Qed.
(** The zero points do not depend on the search tree, so building the tree before or after makes no difference. *)
Lemma zero_tree : forall zpb fr inv v fl fp o, fake_zero_points zpb (mkObs fr inv v fl [] fp) = Ok o ->
  fake_zero_points zpb (mkObs fr inv v fl (build_tree fr) fp) =
    Ok (mkObs (ob_frame o) (ob_inv o) (ob_values o) (ob_filters o) (build_tree (ob_frame o)) (ob_footprint o)).
Proof.
  intros zpb fr inv v fl fp o H. unfold fake_zero_points in *. cbv zeta in *. cbn [ob_frame ob_filters] in *.
  destruct (dmem "zp" (f_cols fr)); [injection H as <-; reflexivity|]. destruct zpb as [m|]; [|discriminate].
  destruct (negb (dmem "filter" _)); [discriminate|]. destruct (negb (forallb _ fl)); [discriminate|].
  match type of H with bind ?X _ = _ => destruct X as [vals|] end; [|discriminate]. cbn [bind] in *.
  unfold add_column in *. cbn [ob_frame ob_inv ob_values ob_filters ob_tree ob_footprint] in *. cbv zeta in *.
  destruct (_ && _)%bool; [discriminate|]. destruct (_ =? _)%nat; [|discriminate]. injection H as <-.
  cbn [ob_frame ob_inv ob_values ob_filters ob_tree ob_footprint]. f_equal. f_equal. destruct fr as [l d]. cbn [f_labels f_cols]. symmetry. apply build_tree_dset; discriminate.
Qed.
Lemma zero_spec : forall zpb o o1, tinv o -> covers o -> (forall m, zpb = Some m -> NoDup (dkeys m)) -> fake_zero_points zpb o = Ok o1 ->
  grows o o1 /\ tinv o1 /\ In "zp"%string (columns (ob_frame o1)) /\
  (forall c, In c (columns (ob_frame o1)) -> c = "zp"%string \/ In c (columns (ob_frame o))) /\
  (dmem "zp" (f_cols (ob_frame o)) = false -> exists m, zpb = Some m /\
     forall i s, cell_at o "filter" i = Some (CStr s) -> exists v, dget s m = Some v /\ 0 < v /\ num_at o1 "zp" i = Some v).
Proof.
  intros zpb o o1 T C ND H. unfold fake_zero_points in H. cbv zeta in H. destruct (dmem "zp" (f_cols (ob_frame o))) eqn:EM.
  - injection H as <-. split; [apply grows_refl|]. split; auto. split; [now apply dmem_true|]. split; [auto|discriminate].
  - destruct zpb as [m|]; [|discriminate]. destruct (dmem "filter" (f_cols (ob_frame o))) eqn:EF; [|discriminate]. cbn [negb] in H.
    destruct (forallb _ (ob_filters o)) eqn:EA; [|discriminate]. cbn [negb] in H.
    match type of H with bind ?X _ = _ => destruct X as [vals|] eqn:EX end; [|discriminate]. cbn [bind] in H.
    apply dmem_true in EF. pose proof (cells_len o T EF) as CL.
    destruct (zp_fill _ _ _ _ (eq_trans (repeat_length 0 _) (eq_sym CL)) (ND m eq_refl) EX) as (L & POS & VAL).
    destruct (add_grows _ _ _ _ _ EM H) as (G & I & OC). split; auto. split; [eapply add_column_inv; eauto; discriminate|]. split; auto. split; auto.
    intros _. exists m. split; auto. intros i s HC. rewrite forallb_forall in EA. pose proof (EA s (C _ _ HC)) as HD.
    apply dmem_dget in HD. destruct HD as (v & HD). exists v. split; auto. split; eauto.
    destruct (C66_add_column _ _ _ _ _ H) as (_ & _ & CA & _).
    assert (LI : (i < nrows (ob_frame o))%nat).
    { rewrite <- CL. apply nth_error_Some. rewrite (filter_cell_nth _ _ _ HC). discriminate. }
    unfold num_at. rewrite (proj1 (CA i LI)), nth_error_map, (VAL i s (filter_cell_nth _ _ _ HC)), HD. reflexivity.
Qed.

(** The stages of the constructor. *)
Lemma make_stages : forall f cm meta a fp k, fake_make f cm meta a fp = Ok k ->
  exists o0, ob_make f cm meta [] fp = Ok o0 /\
  let b := mkObs (ob_frame o0) (ob_inv o0) (fake_values meta a) (ob_filters o0) (ob_tree o0) (ob_footprint o0) in
  exists o1, (if ob_contains b "zp" then o1 = b else fake_zero_points (fa_zp a) b = Ok o1) /\
  exists c, fake_const (fa_const a) (ob_filters o0) = Ok c /\
  match c with
  | Some m => k = mkFakeTable o1 (Some m)
  | None => exists o2, fake_noise_columns o1 = Ok o2 /\ k = mkFakeTable o2 None
  end.
Proof.
  intros f cm meta a fp k H. unfold fake_make in H. unfold ob_make. destruct (remap cm f) as [[f' inv]|]; [|discriminate]. cbn [bind] in *.
  destruct (forallb _ required); [|discriminate]. cbn [negb] in H. cbv zeta in H. eexists. split; [reflexivity|].
  cbn [ob_frame ob_inv ob_filters ob_tree ob_footprint].
  assert (EC : forall t, ob_contains (mkObs f' inv (fake_values meta a) (unique_filters f') t fp) "zp" =
               ob_contains (mkObs f' inv (fake_values meta a) (unique_filters f') [] fp) "zp") by reflexivity.
  rewrite EC. destruct (ob_contains (mkObs f' inv (fake_values meta a) (unique_filters f') [] fp) "zp") eqn:EZ.
  - cbn [bind ob_frame ob_inv ob_values ob_filters ob_footprint] in H. eexists. split; [reflexivity|].
    destruct (fake_const (fa_const a) (unique_filters f')) as [c|]; [|discriminate]. cbn [bind] in H. exists c. split; auto.
    destruct c; [now inversion H|]. destruct (fake_noise_columns _) as [o2|] eqn:EN; [|discriminate]. cbn [bind] in H. inversion H; subst. eauto.
  - destruct (fake_zero_points (fa_zp a) _) as [o|] eqn:EO; [|discriminate]. cbn [bind] in H.
    pose proof (zero_tree _ _ _ _ _ _ _ EO) as ET.
    assert (EFI : ob_filters o = unique_filters f').
    { unfold fake_zero_points in EO. cbv zeta in EO. cbn [ob_frame ob_filters] in EO.
      destruct (dmem "zp" _); [injection EO as <-; reflexivity|]. destruct (fa_zp a); [|discriminate].
      destruct (negb (dmem "filter" _)); [discriminate|]. destruct (negb _); [discriminate|].
      match type of EO with bind ?X _ = _ => destruct X end; [|discriminate]. cbn [bind] in EO. unfold add_column in EO. cbv zeta in EO.
      destruct (_ && _)%bool; [discriminate|]. destruct (_ =? _)%nat; [|discriminate]. now injection EO as <-. }
    eexists. split; [exact ET|]. cbn [ob_filters] in H. rewrite EFI in H.
    destruct (fake_const (fa_const a) (unique_filters f')) as [c|]; [|discriminate]. cbn [bind] in H. exists c. split; auto. rewrite EFI.
    destruct c; [now inversion H|]. destruct (fake_noise_columns _) as [o2|] eqn:EN; [|discriminate]. cbn [bind] in H. inversion H; subst. eauto.
Qed.
Lemma user_value_grows : forall o o1 name val i, grows o o1 -> In "filter"%string (columns (ob_frame o)) ->
  (In name (columns (ob_frame o1)) -> In name (columns (ob_frame o))) -> user_value o1 name val i = user_value o name val i.
Proof.
  intros o o1 name val i G HF HN. unfold user_value. rewrite (gr_cells _ _ G "filter"%string) by auto.
  assert (E : dmem name (f_cols (ob_frame o1)) = dmem name (f_cols (ob_frame o))).
  { destruct (dmem name (f_cols (ob_frame o))) eqn:E.
    - apply dmem_true. apply (gr_cols _ _ G). now apply dmem_true.
    - apply dmem_false. intros H. apply dmem_false in E. apply E. now apply HN. }
  rewrite E. destruct (dmem name (f_cols (ob_frame o))) eqn:E2; auto. unfold num_at. rewrite (gr_cells _ _ G); auto. now apply dmem_true.
Qed.
(** The footprint a user described: the given one, else that of a Gaussian PSF of the given width. *)
Definition user_footprint (o : obstable) (footprint fwhm : sval) (i : nat) : option R :=
  if (dmem "psf_footprint" (f_cols (ob_frame o)) || match footprint with SNone => false | _ => true end)%bool
  then user_value o "psf_footprint" footprint i
  else option_map (fun w => PI / (2 * ln 2) * w ^ 2) (user_value o "fwhm_px" fwhm i).
Lemma cell_lt : forall o c i x, tinv o -> cell_at o c i = Some x -> (i < nrows (ob_frame o))%nat.
Proof.
  intros o c i x T H. eapply num_at_lt with (name := c); eauto. unfold num_at. rewrite H. reflexivity.
Qed.
Lemma num_at_grows : forall o o' c i, grows o o' -> In c (columns (ob_frame o)) -> num_at o' c i = num_at o c i.
Proof. intros o o' c i G H. unfold num_at. now rewrite (gr_cells _ _ G). Qed.
Lemma noise_spec : forall o o' vt vn vf vw vs, tinv o -> covers o -> In "filter"%string (columns (ob_frame o)) ->
  dget "exptime" (ob_values o) = Some vt -> dget "nexposure" (ob_values o) = Some vn -> dget "psf_footprint" (ob_values o) = Some vf ->
  dget "fwhm_px" (ob_values o) = Some vw -> dget "sky" (ob_values o) = Some vs ->
  fake_noise_columns o = Ok o' ->
  grows o o' /\ tinv o' /\ (forall c, In c ["exptime"; "nexposure"; "psf_footprint"; "sky"]%string -> In c (columns (ob_frame o'))) /\
  (forall c, In c (columns (ob_frame o')) -> In c (columns (ob_frame o)) \/ In c ["exptime"; "nexposure"; "psf_footprint"; "fwhm_px"; "sky"]%string) /\
  forall i s, cell_at o "filter" i = Some (CStr s) ->
    num_at o' "exptime" i = user_value o "exptime" vt i /\ num_at o' "nexposure" i = user_value o "nexposure" vn i /\
    num_at o' "psf_footprint" i = user_footprint o vf vw i /\ num_at o' "sky" i = user_value o "sky" vs i.
Proof.
  intros o o' vt vn vf vw vs T C HF Et En Ef Ew Es H. unfold fake_noise_columns in H.
  destruct (needs o "exptime" true) as [o1|] eqn:E1; [|discriminate]. cbn [bind] in H. apply needs_ok in E1.
  destruct (assign_spec _ _ _ _ T C E1) as (G1 & T1 & I1 & O1 & V1).
  pose proof (grows_covers _ _ G1 HF C) as C1. pose proof (gr_cols _ _ G1 _ HF) as HF1.
  destruct (needs o1 "nexposure" true) as [o2|] eqn:E2; [|discriminate]. cbn [bind] in H. apply needs_ok in E2.
  destruct (assign_spec _ _ _ _ T1 C1 E2) as (G2 & T2 & I2 & O2 & V2).
  pose proof (grows_covers _ _ G2 HF1 C1) as C2. pose proof (gr_cols _ _ G2 _ HF1) as HF2.
  match type of H with bind ?X _ = _ => destruct X as [o3|] eqn:E3 end; [|discriminate]. cbn [bind] in H. apply needs_ok in H.
  pose proof (grows_trans _ _ _ G1 G2) as G12.
  assert (VAL : forall k, dget k (ob_values o2) = dget k (ob_values o)) by (intros; now rewrite (gr_values _ _ G12)).
  assert (M3 : grows o2 o3 /\ tinv o3 /\ In "psf_footprint"%string (columns (ob_frame o3)) /\
    (forall c, In c (columns (ob_frame o3)) -> In c (columns (ob_frame o2)) \/ In c ["psf_footprint"; "fwhm_px"]%string) /\
    forall i s, cell_at o2 "filter" i = Some (CStr s) -> num_at o3 "psf_footprint" i = user_footprint o2 vf vw i).
  { destruct (assign_constant o2 "psf_footprint" true) as [[b o3']|] eqn:EA; [|discriminate]. cbn [bind fst snd] in E3. destruct b.
    - injection E3 as ->. destruct (assign_spec _ _ _ _ T2 C2 EA) as (G3 & T3 & I3 & O3 & V3). split; auto. split; auto. split; auto. split.
      { intros c Hc. destruct (O3 c Hc) as [->|]; simpl; auto. }
      intros i s HC. destruct (V3 i s vf) as [VV _]; auto; [rewrite VAL; auto|]. rewrite VV. unfold user_footprint.
      destruct (dmem "psf_footprint" (f_cols (ob_frame o2))) eqn:ED; [reflexivity|]. cbn [orb].
      destruct vf; auto. unfold assign_constant in EA. rewrite ED, VAL, Ef in EA. discriminate.
    - assert (ED : dmem "psf_footprint" (f_cols (ob_frame o2)) = false /\ vf = SNone /\ o3' = o2).
      { unfold assign_constant in EA. destruct (dmem "psf_footprint" (f_cols (ob_frame o2))); [discriminate|]. cbv zeta in EA. rewrite VAL, Ef in EA.
        assert (X : forall m, bind (fold_res (fun vals fil => match dget fil m with
          | None => Err ValueError
          | Some v => if (true && Rleb v 0)%bool then Err ValueError else Ok (set_where fil v (filter_cells (ob_frame o2)) vals)
          end) (repeat 0 (nrows (ob_frame o2))) (ob_filters o2)) (fun vals =>
          bind (add_column o2 "psf_footprint" (ColList (map CNum vals)) false) (fun o' => Ok (true, o'))) <> Ok (false, o3')).
        { intros m HM. match type of HM with bind ?X _ = _ => destruct X as [vals|] end; [|discriminate]. cbn [bind] in HM.
          destruct (add_column o2 "psf_footprint" (ColList (map CNum vals)) false); discriminate. }
        destruct vf; try (now apply X in EA); [inversion EA; auto|]. destruct (ob_filters o2); [now apply X in EA|discriminate]. }
      destruct ED as (ED & -> & ->).
      destruct (needs o2 "fwhm_px" true) as [o4|] eqn:E4; [|discriminate]. cbn [bind] in E3. apply needs_ok in E4.
      destruct (assign_spec _ _ _ _ T2 C2 E4) as (G4 & T4 & I4 & O4 & V4).
      assert (ED4 : dmem "psf_footprint" (f_cols (ob_frame o4)) = false).
      { apply dmem_false. intros X. destruct (O4 _ X) as [Y|Y]; [discriminate|]. apply dmem_false in ED. tauto. }
      destruct (add_grows _ _ _ _ _ ED4 E3) as (G5 & I5 & O5).
      split; [eapply grows_trans; eauto|]. split; [eapply add_column_inv; eauto; discriminate|]. split; auto. split.
      { intros c Hc. destruct (O5 c Hc) as [->|Hc']; [simpl; auto|]. destruct (O4 c Hc') as [->|]; simpl; auto. }
      intros i s HC. destruct (V4 i s vw) as [VV _]; auto; [rewrite VAL; auto|].
      unfold user_footprint. rewrite ED. cbn [orb]. rewrite <- VV.
      destruct (C66_add_column _ _ _ _ _ E3) as (_ & _ & CA & _).
      assert (LI : (i < nrows (ob_frame o4))%nat).
      { unfold nrows. rewrite (gr_labels _ _ G4). change ((i < nrows (ob_frame o2))%nat). eapply cell_lt; eauto. }
      unfold num_at at 1. rewrite (proj1 (CA i LI)), nth_error_map, num_col_nth.
      destruct (num_at o4 "fwhm_px" i) as [w|]; [|reflexivity]. cbn [option_map num_of]. f_equal. unfold gauss_area. ring. }
  destruct M3 as (G3 & T3 & I3 & O3 & V3).
  pose proof (grows_covers _ _ G3 HF2 C2) as C3. pose proof (gr_cols _ _ G3 _ HF2) as HF3.
  destruct (assign_spec _ _ _ _ T3 C3 H) as (G4 & T4 & I4 & O4 & V4).
  pose proof (grows_trans _ _ _ G12 G3) as G13. pose proof (grows_trans _ _ _ G13 G4) as G14. pose proof (grows_trans _ _ _ G3 G4) as G34.
  split; auto. split; auto. split.
  { intros c Hc. simpl in Hc. decompose [or] Hc; subst; auto; try tauto.
    - apply (gr_cols _ _ G34), (gr_cols _ _ G2); auto.
    - apply (gr_cols _ _ G34); auto.
    - apply (gr_cols _ _ G4); auto. }
  split.
  { intros c Hc. destruct (O4 c Hc) as [->|Hc']; [simpl; tauto|]. destruct (O3 c Hc') as [Hc''|Hc'']; [|simpl in *; tauto].
    destruct (O2 c Hc'') as [->|H2]; [simpl; tauto|]. destruct (O1 c H2) as [->|]; simpl; tauto. }
  intros i s HC.
  assert (HC1 : cell_at o1 "filter" i = Some (CStr s)) by (rewrite (gr_cells _ _ G1); auto).
  assert (HC2 : cell_at o2 "filter" i = Some (CStr s)) by (rewrite (gr_cells _ _ G12); auto).
  assert (HC3 : cell_at o3 "filter" i = Some (CStr s)) by (rewrite (gr_cells _ _ G13); auto).
  split; [|split; [|split]].
  - rewrite (num_at_grows o1 o'); auto; [|eapply grows_trans; [exact G2|exact G34]]. now apply (V1 i s vt).
  - rewrite (num_at_grows o2 o'); auto. rewrite (proj1 (V2 i s vn ltac:(rewrite (gr_values _ _ G1); auto) HC1)).
    apply user_value_grows; auto. intros X. destruct (O1 _ X) as [Y|Y]; [discriminate|auto].
  - rewrite (num_at_grows o3 o'); auto. rewrite (V3 i s HC2). unfold user_footprint.
    assert (NP : In "psf_footprint"%string (columns (ob_frame o2)) -> In "psf_footprint"%string (columns (ob_frame o))).
    { intros X. destruct (O2 _ X) as [Y|Y]; [discriminate|]. destruct (O1 _ Y) as [Z|Z]; [discriminate|auto]. }
    assert (NW : In "fwhm_px"%string (columns (ob_frame o2)) -> In "fwhm_px"%string (columns (ob_frame o))).
    { intros X. destruct (O2 _ X) as [Y|Y]; [discriminate|]. destruct (O1 _ Y) as [Z|Z]; [discriminate|auto]. }
    rewrite !(user_value_grows o o2) by auto.
    replace (dmem "psf_footprint" (f_cols (ob_frame o2))) with (dmem "psf_footprint" (f_cols (ob_frame o))); auto.
    destruct (dmem "psf_footprint" (f_cols (ob_frame o))) eqn:E; symmetry.
    + apply dmem_true. apply (gr_cols _ _ G12). now apply dmem_true.
    + apply dmem_false. intros X. apply dmem_false in E. apply E, NP, X.
  - rewrite (proj1 (V4 i s vs ltac:(rewrite (gr_values _ _ G13); auto) HC3)). apply user_value_grows; auto.
    intros X. destruct (O3 _ X) as [Y|Y]; [|simpl in Y; intuition discriminate]. destruct (O2 _ Y) as [Z|Z]; [discriminate|]. destruct (O1 _ Z) as [W|W]; [discriminate|auto].
Qed.

Lemma nth_error_same : forall A (l l' : list A), (forall i, nth_error l i = nth_error l' i) -> l = l'.
Proof.
  induction l as [|x l IH]; intros [|y l'] H; auto; try (specialize (H 0%nat); discriminate).
  f_equal; [specialize (H 0%nat); simpl in H; congruence|]. apply IH. intros i. apply (H (S i)).
Qed.

(** ** C71 *)
(** Python keyword arguments: no name twice. *)
Definition args_ok (a : fake_args) : Prop := NoDup (dkeys (fake_kwargs a)) /\ (forall m, fa_zp a = Some m -> NoDup (dkeys m)).
Lemma fake_value_get : forall meta a k v, args_ok a -> In (k, v) (fake_kwargs a) -> dget k (fake_values meta a) = Some v.
Proof.
  intros meta a k v [ND _] H. unfold fake_values. rewrite fold_dset_get, dget_rev by auto. now rewrite (In_dget _ _ _ _ ND H).
Qed.
Lemma base_inv : forall f cm meta fp o0 v, frame_ok f -> (forall d, cm = Some d -> NoDup (dkeys d)) -> ob_make f cm meta [] fp = Ok o0 ->
  let b := mkObs (ob_frame o0) (ob_inv o0) v (ob_filters o0) (ob_tree o0) (ob_footprint o0) in tinv b /\ covers b.
Proof.
  intros f cm meta fp o0 v F ND H. cbv zeta. pose proof (make_inv_obs _ _ _ _ _ _ F ND H) as [A B C]. split; [split; auto|].
  intros i s HC. cbn [ob_filters]. eapply C66_filters_cover; eauto.
Qed.
Definition noise_names : list string := ["zp"; "exptime"; "nexposure"; "psf_footprint"; "fwhm_px"; "sky"]%string.
(** All that happens to the user's table in the constructor. *)
Lemma make_grows : forall f cm meta a fp k o0, frame_ok f -> (forall d, cm = Some d -> NoDup (dkeys d)) -> args_ok a ->
  ob_make f cm meta [] fp = Ok o0 -> In "filter"%string (columns (ob_frame o0)) -> fake_make f cm meta a fp = Ok k ->
  let b := mkObs (ob_frame o0) (ob_inv o0) (fake_values meta a) (ob_filters o0) (ob_tree o0) (ob_footprint o0) in
  grows b (fk_obs k) /\ tinv (fk_obs k) /\
  (forall c, In c (columns (ob_frame (fk_obs k))) -> In c (columns (ob_frame o0)) \/ In c noise_names) /\
  (ob_contains o0 "zp" = false -> exists m, fa_zp a = Some m /\
     forall i s, cell_at o0 "filter" i = Some (CStr s) -> exists v, dget s m = Some v /\ 0 < v /\ num_at (fk_obs k) "zp" i = Some v) /\
  (In "zp"%string (columns (ob_frame (fk_obs k))) -> dmem "zp" (f_cols (ob_frame o0)) = false -> ob_contains o0 "zp" = false) /\
  (fk_const k = None ->
   (forall c, In c ["exptime"; "nexposure"; "psf_footprint"; "sky"]%string -> In c (columns (ob_frame (fk_obs k)))) /\
   forall i s, cell_at o0 "filter" i = Some (CStr s) ->
    num_at (fk_obs k) "exptime" i = user_value o0 "exptime" (fa_exptime a) i /\ num_at (fk_obs k) "nexposure" i = user_value o0 "nexposure" (fa_nexp a) i /\
    num_at (fk_obs k) "psf_footprint" i = user_footprint o0 (fa_footprint a) (fa_fwhm a) i /\ num_at (fk_obs k) "sky" i = user_value o0 "sky" (fa_sky a) i).
Proof.
  intros f cm meta a fp k o0 F ND AO E0 HF H. cbv zeta. destruct (make_stages _ _ _ _ _ _ H) as (o0' & E0' & M). rewrite E0 in E0'. injection E0' as <-.
  cbv zeta in M. set (b := mkObs (ob_frame o0) (ob_inv o0) (fake_values meta a) (ob_filters o0) (ob_tree o0) (ob_footprint o0)) in *.
  destruct (base_inv _ _ _ _ _ (fake_values meta a) F ND E0) as [TB CB]. fold b in TB, CB.
  destruct M as (o1 & M1 & c & M2 & M3).
  assert (S1 : grows b o1 /\ tinv o1 /\ (forall c, In c (columns (ob_frame o1)) -> c = "zp"%string \/ In c (columns (ob_frame b))) /\
    (ob_contains o0 "zp" = false -> exists m, fa_zp a = Some m /\
     forall i s, cell_at o0 "filter" i = Some (CStr s) -> exists v, dget s m = Some v /\ 0 < v /\ num_at o1 "zp" i = Some v) /\
    (ob_contains o0 "zp" = false -> In "zp"%string (columns (ob_frame o1))) /\
    (ob_contains o0 "zp" = true -> o1 = b)).
  { change (ob_contains b "zp") with (ob_contains o0 "zp") in M1. destruct (ob_contains o0 "zp") eqn:EZ.
    - subst o1. split; [apply grows_refl|]. split; auto. split; [auto|]. split; [discriminate|]. split; [discriminate|auto].
    - destruct (zero_spec _ _ _ TB CB (proj2 AO) M1) as (Z1 & Z2 & Z3 & Z4 & Z5). split; auto. split; auto. split; [auto|]. split; [|split; [auto|discriminate]].
      intros _. apply Z5. unfold ob_contains in EZ. apply orb_false_elim in EZ. apply EZ. }
  destruct S1 as (G1 & T1 & O1 & V1 & V2 & V3).
  assert (HF1 : In "filter"%string (columns (ob_frame o1))) by (apply (gr_cols _ _ G1); exact HF).
  pose proof (grows_covers _ _ G1 HF CB) as C1.
  destruct c as [m|].
  - subst k. cbn [fk_obs fk_const]. split; auto. split; auto. split; [|split; [auto|split; [|discriminate]]].
    + intros c Hc. destruct (O1 c Hc) as [->|]; [right; simpl; auto|auto].
    + intros HZ D. destruct (ob_contains o0 "zp") eqn:EZ; auto. rewrite (V3 eq_refl) in HZ. apply dmem_true in HZ. cbn [ob_frame b] in HZ. congruence.
  - destruct M3 as (o2 & M3 & ->). cbn [fk_obs fk_const].
    assert (GV : forall k v, In (k, v) (fake_kwargs a) -> dget k (ob_values o1) = Some v).
    { intros k v HI. rewrite (gr_values _ _ G1). cbn [ob_values b]. now apply fake_value_get. }
    destruct (noise_spec o1 o2 (fa_exptime a) (fa_nexp a) (fa_footprint a) (fa_fwhm a) (fa_sky a) T1 C1 HF1) as (G2 & T2 & I2 & O2 & N2); auto;
      try (apply GV; unfold fake_kwargs; simpl; tauto).
    pose proof (grows_trans _ _ _ G1 G2) as G. split; auto. split; auto. split; [|split; [|split]].
    + intros c Hc. destruct (O2 c Hc) as [Hc'|Hc']; [|right; simpl in *; tauto]. destruct (O1 c Hc') as [->|]; [right; simpl; auto|auto].
    + intros EZ. destruct (V1 EZ) as (m & Em & Hm). exists m. split; auto. intros i s HC. destruct (Hm i s HC) as (v & A1 & A2 & A3). exists v. split; auto. split; auto.
      rewrite (num_at_grows _ _ _ _ G2); auto.
    + intros HZ D. destruct (ob_contains o0 "zp") eqn:EZ; auto. rewrite (V3 eq_refl) in *. destruct (O2 _ HZ) as [Y|Y]; [|simpl in Y; intuition discriminate].
      apply dmem_true in Y. cbn [ob_frame b] in Y. congruence.
    + intros _. split; auto. intros i s HC.
      assert (HC1 : cell_at o1 "filter" i = Some (CStr s)) by (rewrite (gr_cells _ _ G1); auto).
      destruct (N2 i s HC1) as (N21 & N22 & N23 & N24).
      assert (U : forall name val, name <> "zp"%string -> user_value o1 name val i = user_value o0 name val i).
      { intros name val NZ. rewrite (user_value_grows b o1); auto. intros X. destruct (O1 _ X); [contradiction|auto]. }
      rewrite N21, N22, N23, N24. unfold user_footprint. rewrite !U by discriminate. split; [auto|split; [auto|split; [|auto]]].
      replace (dmem "psf_footprint" (f_cols (ob_frame o1))) with (dmem "psf_footprint" (f_cols (ob_frame o0))); auto.
      destruct (dmem "psf_footprint" (f_cols (ob_frame o0))) eqn:E; symmetry.
      * apply dmem_true. apply (gr_cols _ _ G1). now apply dmem_true.
      * apply dmem_false. intros X. apply dmem_false in E. destruct (O1 _ X) as [Y|Y]; [discriminate|]. now apply E.
Qed.

(** Nothing the user supplied changes: the rows, the pointings and every column of the plain table of the same data
    are kept; only columns of the noise model are added. *)
Theorem C71_table_kept : forall f cm meta a fp k o0, frame_ok f -> (forall d, cm = Some d -> NoDup (dkeys d)) -> args_ok a ->
  ob_make f cm meta [] fp = Ok o0 -> In "filter"%string (columns (ob_frame o0)) -> fake_make f cm meta a fp = Ok k ->
  nrows (ob_frame (fk_obs k)) = nrows (ob_frame o0) /\
  (forall c i, In c (columns (ob_frame o0)) -> cell_at (fk_obs k) c i = cell_at o0 c i) /\
  (forall c, In c (columns (ob_frame (fk_obs k))) -> In c (columns (ob_frame o0)) \/
     In c ["zp"; "exptime"; "nexposure"; "psf_footprint"; "fwhm_px"; "sky"]%string) /\
  (forall ball ra dec r tmin tmax, range_search ball (fk_obs k) ra dec (Some r) tmin tmax = range_search ball o0 ra dec (Some r) tmin tmax).
Proof.
  intros f cm meta a fp k o0 F ND AO E0 HF H. destruct (make_grows _ _ _ _ _ _ _ F ND AO E0 HF H) as (G & T & O & _).
  split; [exact (grows_nrows _ _ G)|]. split; [exact (gr_cells _ _ G)|]. split; [exact O|].
  pose proof (make_inv_obs _ _ _ _ _ _ F ND E0) as T0.
  intros ball ra dec r tmin tmax. unfold range_search. cbn [bind]. cbv zeta.
  assert (NC : forall c, In c (columns (ob_frame o0)) -> dget c (f_cols (ob_frame (fk_obs k))) = dget c (f_cols (ob_frame o0))).
  { intros c Hc. assert (X : forall o, tinv o -> In c (columns (ob_frame o)) -> exists l, dget c (f_cols (ob_frame o)) = Some l /\ length l = nrows (ob_frame o)).
    { intros o TO HI. apply dget_keys in HI. destruct (dget c (f_cols (ob_frame o))) as [l|] eqn:E; [|congruence]. exists l. split; auto.
      destruct (ti_frame o TO) as [_ FF]. rewrite Forall_forall in FF. now apply (FF (c, l)), dget_In. }
    destruct (X o0 T0 Hc) as (l & El & Ll). destruct (X (fk_obs k) T (gr_cols _ _ G c Hc)) as (l' & El' & Ll'). rewrite El, El'. f_equal.
    apply nth_error_same. intros i. pose proof (gr_cells _ _ G c i Hc) as E. unfold cell_at in E. cbn [ob_frame] in E. now rewrite El, El' in E. }
  assert (NN : forall c, In c required -> num_col c (ob_frame (fk_obs k)) = num_col c (ob_frame o0)).
  { intros c Hc. unfold num_col. rewrite NC; auto. now apply (ti_req _ T0). }
  assert (RT : forall i, rotation_of (ob_frame (fk_obs k)) i = rotation_of (ob_frame o0) i).
  { intros i. unfold rotation_of. destruct (dget "rotation" (f_cols (ob_frame o0))) as [l|] eqn:E.
    - rewrite NC, E; auto. apply dget_keys. congruence.
    - replace (dget "rotation" (f_cols (ob_frame (fk_obs k)))) with (@None (list cell)); auto. symmetry. apply dget_None. intros X.
      destruct (O _ X) as [Y|Y]; [|simpl in Y; intuition discriminate]. apply dget_None in E. now apply E. }
  assert (SO : forall q1 q2 lo hi, search_one ball (fk_obs k) q1 q2 r lo hi = search_one ball o0 q1 q2 r lo hi).
  { intros. unfold search_one. pose proof (gr_tree _ _ G) as GT. pose proof (gr_fp _ _ G) as GF. cbn [ob_tree ob_footprint] in GT, GF. rewrite GT, GF.
    rewrite (NN "time"%string) by (simpl; auto). destruct (ob_footprint o0); auto. apply filter_ext. intros i.
    rewrite (NN "ra"%string), (NN "dec"%string), RT by (simpl; auto). reflexivity. }
  destruct (negb _); [reflexivity|]. destruct (tlist _ tmin) as [lo|]; [|reflexivity]. cbn [bind]. destruct (tlist _ tmax) as [hi|]; [|reflexivity]. cbn [bind].
  rewrite (map_ext _ (fun q => search_one ball o0 (fst (fst q)) (snd (fst q)) r (fst (snd q)) (snd (snd q)))); [reflexivity|]. intros [[q1 q2] [lo' hi']]. apply SO.
Qed.
(** Without a zero-point column the zero point of a row is the positive number given for its filter. *)
Theorem C71_zero_points : forall f cm meta a fp k o0, frame_ok f -> (forall d, cm = Some d -> NoDup (dkeys d)) -> args_ok a ->
  ob_make f cm meta [] fp = Ok o0 -> In "filter"%string (columns (ob_frame o0)) -> ob_contains o0 "zp" = false ->
  fake_make f cm meta a fp = Ok k ->
  exists m, fa_zp a = Some m /\
    forall i s, cell_at o0 "filter" i = Some (CStr s) -> exists v, dget s m = Some v /\ 0 < v /\ num_at (fk_obs k) "zp" i = Some v.
Proof. intros f cm meta a fp k o0 F ND AO E0 HF HZ H. destruct (make_grows _ _ _ _ _ _ _ F ND AO E0 HF H) as (_ & _ & _ & V & _). auto. Qed.

Lemma num_at_nth : forall o c l i v, dget c (f_cols (ob_frame o)) = Some l -> num_at o c i = Some v -> num_of (nth i l (CNum 0)) = v.
Proof.
  intros o c l i v E H. unfold num_at, cell_at in H. rewrite E in H. destruct (nth_error l i) as [x|] eqn:EX; [|discriminate].
  rewrite (nth_error_nth l i _ EX). simpl in H. congruence.
Qed.
Lemma safe_number_ok : forall o k v, safe_number o k = Ok v <-> dget k (ob_values o) = Some (SNum v).
Proof. intros. unfold safe_number. destruct (dget k (ob_values o)) as [[| | |]|]; split; intros H; inversion H; auto. Qed.
Lemma const_none : forall c fl, fake_const c fl = Ok None <-> c = CFNone.
Proof.
  intros [|r|m] fl; unfold fake_const; cbv zeta; split; intros H; auto; try discriminate; exfalso;
    (destruct (negb _); [discriminate|]; destruct (existsb _ _); discriminate).
Qed.
Lemma make_const : forall f cm meta a fp k, fake_make f cm meta a fp = Ok k -> (fk_const k = None <-> fa_const a = CFNone).
Proof.
  intros f cm meta a fp k H. destruct (make_stages _ _ _ _ _ _ H) as (o0 & E0 & M). cbv zeta in M. destruct M as (o1 & _ & c & M2 & M3).
  destruct c as [m|].
  - subst k. cbn [fk_const]. split; [discriminate|]. intros E. rewrite E in M2. discriminate.
  - destruct M3 as (o2 & _ & ->). cbn [fk_const]. apply const_none in M2. split; auto.
Qed.
(** The flux errors: for every requested row the Poisson noise of the values the user gave for that row. *)
Theorem C71_noise : forall f cm meta a fp k o0 flux index, frame_ok f -> (forall d, cm = Some d -> NoDup (dkeys d)) -> args_ok a ->
  ob_make f cm meta [] fp = Ok o0 -> has_filters o0 -> fa_const a = CFNone ->
  fake_make f cm meta a fp = Ok k -> length flux = length index -> (forall i, In i index -> (i < nrows (ob_frame o0))%nat) ->
  forall rn dk, fa_read a = SNum rn -> fa_dark a = SNum dk ->
  (In "zp"%string (columns (ob_frame o0)) \/ ob_contains o0 "zp" = false) ->
  In "filter"%string (columns (ob_frame o0)) ->
  exists out, fake_error k flux index = Ok out /\ length out = length index /\
  forall j x i, nth_error flux j = Some x -> nth_error index j = Some i ->
    exists t n w sky zp, user_value o0 "exptime" (fa_exptime a) i = Some t /\ user_value o0 "nexposure" (fa_nexp a) i = Some n /\
      user_footprint o0 (fa_footprint a) (fa_fwhm a) i = Some w /\ user_value o0 "sky" (fa_sky a) i = Some sky /\
      user_value o0 "zp" (match fa_zp a with Some m => SMap m | None => SNone end) i = Some zp /\
      nth_error out j = Some (poisson_std x t n w sky zp (RNum rn) dk).
Proof.
  intros f cm meta a fp k o0 flux index F ND AO E0 HFI HC H HL HI rn dk HR HD HZP HF.
  destruct (make_grows _ _ _ _ _ _ _ F ND AO E0 HF H) as (G & T & O & V & V2 & N).
  destruct (N (proj2 (make_const _ _ _ _ _ _ H) HC)) as [NI NV]. clear N.
  pose proof (grows_nrows _ _ G) as NR. cbn [ob_frame] in NR.
  assert (ZC : In "zp"%string (columns (ob_frame (fk_obs k)))).
  { destruct HZP as [HZ|HZ]; [apply (gr_cols _ _ G); exact HZ|].
    destruct (make_stages _ _ _ _ _ _ H) as (o0' & E0' & M). rewrite E0 in E0'. injection E0' as <-. cbv zeta in M.
    destruct M as (o1 & M1 & c & M2 & M3). set (b := mkObs (ob_frame o0) (ob_inv o0) (fake_values meta a) (ob_filters o0) (ob_tree o0) (ob_footprint o0)) in *.
    change (ob_contains b "zp") with (ob_contains o0 "zp") in M1. rewrite HZ in M1. destruct (base_inv _ _ _ _ _ (fake_values meta a) F ND E0) as [TB CB].
    destruct (zero_spec _ _ _ TB CB (proj2 AO) M1) as (Z1 & Z2 & Z3 & Z4 & Z5). rewrite HC in M2. injection M2 as <-. destruct M3 as (o2 & M3 & ->). cbn [fk_obs].
    assert (GV : forall k v, In (k, v) (fake_kwargs a) -> dget k (ob_values o1) = Some v).
    { intros k v HII. rewrite (gr_values _ _ Z1). cbn [ob_values]. now apply fake_value_get. }
    destruct (noise_spec o1 o2 (fa_exptime a) (fa_nexp a) (fa_footprint a) (fa_fwhm a) (fa_sky a)) as (G2 & _); auto;
      try (apply GV; unfold fake_kwargs; simpl; tauto).
    - exact (grows_covers _ _ Z1 HF CB).
    - apply (gr_cols _ _ Z1). exact HF.
    - now apply (gr_cols _ _ G2). }
  assert (CO : forall c, In c (columns (ob_frame (fk_obs k))) -> exists l, dget c (f_cols (ob_frame (fk_obs k))) = Some l /\ need_col (fk_obs k) c = Ok l).
  { intros c Hc. apply dget_keys in Hc. unfold need_col. destruct (dget c (f_cols (ob_frame (fk_obs k)))) as [l|]; [eauto|congruence]. }
  destruct (CO "psf_footprint"%string (NI "psf_footprint"%string ltac:(simpl; auto))) as (fpc & E1 & R1).
  destruct (CO "exptime"%string (NI "exptime"%string ltac:(simpl; auto))) as (tc & E2 & R2).
  destruct (CO "nexposure"%string (NI "nexposure"%string ltac:(simpl; auto))) as (nc & E3 & R3).
  destruct (CO "sky"%string (NI "sky"%string ltac:(simpl; auto))) as (sc & E4 & R4).
  destruct (CO "zp"%string ZC) as (zc & E5 & R5).
  assert (SR : safe_number (fk_obs k) "read_noise" = Ok rn).
  { apply safe_number_ok. rewrite (gr_values _ _ G). cbn [ob_values]. rewrite <- HR. apply fake_value_get; auto. unfold fake_kwargs. simpl. tauto. }
  assert (SD : safe_number (fk_obs k) "dark_current" = Ok dk).
  { apply safe_number_ok. rewrite (gr_values _ _ G). cbn [ob_values]. rewrite <- HD. apply fake_value_get; auto. unfold fake_kwargs. simpl. tauto. }
  unfold fake_error. rewrite (proj2 (make_const _ _ _ _ _ _ H) HC). cbv zeta.
  assert (FB : forallb (fun i => (i <? nrows (ob_frame (fk_obs k)))%nat) index = true).
  { apply forallb_forall. intros i Hi. apply Nat.ltb_lt. rewrite NR. auto. }
  rewrite FB. cbn [negb]. rewrite R1, R2, R3, R4, R5, SR, SD. cbn [bind]. rewrite HL, Nat.eqb_refl. cbn [negb].
  eexists. split; [reflexivity|]. split; [rewrite map_length, combine_length; lia|].
  intros j x i Hx Hi. assert (LI : (i < nrows (ob_frame o0))%nat) by (apply HI; eapply nth_error_In; eauto).
  destruct (HFI i LI) as (s & HS). destruct (NV i s HS) as (N1 & N2 & N3 & N4).
  assert (DEF : forall c, In c (columns (ob_frame (fk_obs k))) -> exists v, num_at (fk_obs k) c i = Some v).
  { intros c Hc. apply num_at_Some; auto. rewrite NR. auto. }
  destruct (DEF "exptime"%string) as (t & Ht); [apply NI; simpl; auto|]. destruct (DEF "nexposure"%string) as (n & Hn); [apply NI; simpl; auto|].
  destruct (DEF "psf_footprint"%string) as (w & Hw); [apply NI; simpl; auto|]. destruct (DEF "sky"%string) as (sky & Hs); [apply NI; simpl; auto|].
  destruct (DEF "zp"%string ZC) as (zp & Hz).
  exists t, n, w, sky, zp. split; [congruence|]. split; [congruence|]. split; [congruence|]. split; [congruence|]. split.
  - unfold user_value. destruct (dmem "zp" (f_cols (ob_frame o0))) eqn:EZ.
    + rewrite (num_at_grows _ _ "zp"%string i G) in Hz; [exact Hz|]. cbn [ob_frame]. now apply dmem_true.
    + rewrite HS. destruct (V (V2 ZC eq_refl)) as (m & -> & Hm). destruct (Hm i s HS) as (v & A1 & A2 & A3). cbn [value_for]. congruence.
  - rewrite nth_error_map, nth_error_combine, Hx, Hi. cbn [option_map].
    rewrite (num_at_nth _ _ _ _ _ E1 Hw), (num_at_nth _ _ _ _ _ E2 Ht), (num_at_nth _ _ _ _ _ E3 Hn), (num_at_nth _ _ _ _ _ E4 Hs), (num_at_nth _ _ _ _ _ E5 Hz). reflexivity.
Qed.
(** With a constant flux error every requested row gets the constant of its filter, whatever the flux. *)
Definition constant_for (c : cflux) (fil : string) : option R :=
  match c with CFNone => None | CFNum r => Some r | CFMap m => dget fil m end.
Lemma dget_const_map : forall (l : list string) (r : R) s, In s l -> dget s (map (fun fil => (fil, r)) l) = Some r.
Proof.
  induction l as [|f l IH]; intros r s []; simpl; [subst; now rewrite String.eqb_refl|]. destruct (String.eqb s f); auto.
Qed.
Lemma seq_res_map : forall A B (g : A -> result B) (h : A -> B) l, (forall a, In a l -> g a = Ok (h a)) -> seq_res (map g l) = Ok (map h l).
Proof.
  induction l as [|a l IH]; intros H; cbn [map seq_res]; auto. rewrite (H a) by (left; auto). cbn [bind]. rewrite IH by (intros; apply H; right; auto). reflexivity.
Qed.
Lemma const_some : forall c fl m, fake_const c fl = Ok (Some m) -> (forall s, In s fl -> exists v, dget s m = Some v /\ constant_for c s = Some v) /\
  (forall s v, dget s m = Some v -> 0 <= v).
Proof.
  intros c fl m H.
  assert (K : forall m0, (if negb (forallb (fun fil => dmem fil m0) fl) then Err ValueError
      else if existsb (fun kv : string * R => Rltb (snd kv) 0) m0 then Err ValueError else Ok (Some m0)) = Ok (Some m) ->
      m0 = m /\ (forall s, In s fl -> exists v, dget s m = Some v) /\ (forall s v, dget s m = Some v -> 0 <= v)).
  { intros m0 H0. destruct (forallb _ fl) eqn:EF; [|discriminate]. cbn [negb] in H0. destruct (existsb _ m0) eqn:EX; [discriminate|]. injection H0 as <-.
    split; auto. split.
    - intros s HS. rewrite forallb_forall in EF. apply dmem_dget. auto.
    - intros s v HV. apply Rnot_lt_le. intros L. assert (X : existsb (fun kv : string * R => Rltb (snd kv) 0) m0 = true); [|congruence].
      apply existsb_exists. exists (s, v). split; [now apply dget_In|]. now apply Rltb_true. }
  destruct c as [|r|m0]; [discriminate| |]; unfold fake_const in H; cbv zeta in H; destruct (K _ H) as (E & A & B); split; auto.
  - intros s HS. exists r. split; auto. rewrite <- E. now apply dget_const_map.
  - intros s HS. destruct (A s HS) as (v & Ev). exists v. split; auto. cbn [constant_for]. congruence.
Qed.
Theorem C71_constant : forall f cm meta a fp k o0 flux index, frame_ok f -> (forall d, cm = Some d -> NoDup (dkeys d)) -> args_ok a ->
  ob_make f cm meta [] fp = Ok o0 -> has_filters o0 -> In "filter"%string (columns (ob_frame o0)) -> fa_const a <> CFNone ->
  fake_make f cm meta a fp = Ok k -> (forall i, In i index -> (i < nrows (ob_frame o0))%nat) ->
  exists out, fake_error k flux index = Ok out /\ length out = length index /\
  forall j i s, nth_error index j = Some i -> cell_at o0 "filter" i = Some (CStr s) ->
    exists v, constant_for (fa_const a) s = Some v /\ 0 <= v /\ nth_error out j = Some (Some v).
Proof.
  intros f cm meta a fp k o0 flux index F ND AO E0 HFI HF HC H HI.
  destruct (make_grows _ _ _ _ _ _ _ F ND AO E0 HF H) as (G & T & _).
  destruct (make_stages _ _ _ _ _ _ H) as (o0' & E0' & M). rewrite E0 in E0'. injection E0' as <-. cbv zeta in M.
  destruct M as (o1 & _ & c & M2 & M3). destruct c as [m|]; [|apply const_none in M2; contradiction].
  destruct (const_some _ _ _ M2) as [A B].
  assert (EK : fk_const k = Some m) by (rewrite M3; reflexivity).
  pose proof (grows_nrows _ _ G) as NR. cbn [ob_frame] in NR.
  unfold fake_error. rewrite EK. cbv zeta.
  pose proof (gr_cols _ _ G "filter"%string HF) as HF'. apply dget_keys in HF'. unfold need_col.
  destruct (dget "filter" (f_cols (ob_frame (fk_obs k)))) as [fc|] eqn:EFC; [|congruence]. cbn [bind].
  assert (FB : forallb (fun i => (i <? nrows (ob_frame (fk_obs k)))%nat) index = true).
  { apply forallb_forall. intros i Hi. apply Nat.ltb_lt. rewrite NR. auto. }
  rewrite FB. cbn [negb].
  assert (CE : forall i s, cell_at o0 "filter" i = Some (CStr s) -> nth_error fc i = Some (CStr s)).
  { intros i s HS. pose proof (gr_cells _ _ G "filter"%string i HF) as E. unfold cell_at at 1 in E. rewrite EFC in E. rewrite E. exact HS. }
  rewrite (seq_res_map _ _ _ (fun i => match nth_error fc i with Some (CStr s) => dget s m | _ => None end)).
  2:{ intros i Hi. destruct (HFI i (HI i Hi)) as (s & HS). rewrite (CE i s HS).
      destruct (A s (C66_filters_cover _ _ _ _ _ _ _ _ E0 HS)) as (v & Ev & _). now rewrite Ev. }
  eexists. split; [reflexivity|]. split; [apply map_length|]. intros j i s Hj HS.
  destruct (A s (C66_filters_cover _ _ _ _ _ _ _ _ E0 HS)) as (v & Ev & Ec). exists v. split; auto. split; [eauto|].
  rewrite nth_error_map, Hj. cbn [option_map]. now rewrite (CE i s HS), Ev.
Qed.
Lemma needs_accepts : forall o name cp val, tinv o -> In "filter"%string (columns (ob_frame o)) -> dget name (ob_values o) = Some val ->
  (dmem name (f_cols (ob_frame o)) = true \/ (val <> SNone /\ (forall s, val <> SText s) /\
     forall fil, In fil (ob_filters o) -> exists v, value_for val fil = Some v /\ (cp = true -> 0 < v))) ->
  exists o', needs o name cp = Ok o'.
Proof.
  intros o name cp val T HF EV [HM|(N1 & N2 & HV)].
  - exists o. apply needs_ok. now apply C66_existing_column_kept.
  - destruct (dmem name (f_cols (ob_frame o))) eqn:EM; [exists o; apply needs_ok; now apply C66_existing_column_kept|].
    destruct (constant_accepts_inv o name cp val T HF EM EV N2 N1) as [A _]. destruct (proj2 A HV) as (o' & E). exists o'. now apply needs_ok.
Qed.
(** A number, or a number for every filter of the table, positive where the constructor insists on it. *)
Definition usable (o : obstable) (name : string) (positive : bool) (val : sval) : Prop :=
  In name (columns (ob_frame o)) \/
  (val <> SNone /\ (forall s, val <> SText s) /\ forall fil, In fil (ob_filters o) -> exists v, value_for val fil = Some v /\ (positive = true -> 0 < v)).
(** The constructor accepts every table with a filter column for which zero points, exposure, footprint (or width) and
    sky are given. *)
Theorem C71_accepts : forall f cm meta a fp o0, frame_ok f -> (forall d, cm = Some d -> NoDup (dkeys d)) -> args_ok a ->
  ob_make f cm meta [] fp = Ok o0 -> In "filter"%string (columns (ob_frame o0)) -> fa_const a = CFNone ->
  (ob_contains o0 "zp" = true \/ exists m, fa_zp a = Some m /\ Forall (fun kv => 0 < snd kv) m /\ forall fil, In fil (ob_filters o0) -> dmem fil m = true) ->
  usable o0 "exptime" true (fa_exptime a) -> usable o0 "nexposure" true (fa_nexp a) -> usable o0 "sky" false (fa_sky a) ->
  (usable o0 "psf_footprint" true (fa_footprint a) \/ (fa_footprint a = SNone /\ usable o0 "fwhm_px" true (fa_fwhm a))) ->
  exists k, fake_make f cm meta a fp = Ok k.
Proof.
  intros f cm meta a fp o0 F ND AO E0 HF HC HZ Ut Un Us Uw.
  destruct (base_inv _ _ _ _ _ (fake_values meta a) F ND E0) as [TB CB].
  unfold fake_make. unfold ob_make in E0. destruct (remap cm f) as [[f' inv]|] eqn:ER; [|discriminate]. cbn [bind] in *.
  destruct (forallb _ required) eqn:EQ; [|discriminate]. cbn [negb]. injection E0 as <-. cbv zeta.
  cbn [ob_frame ob_inv ob_filters ob_tree ob_footprint] in *.
  set (b := mkObs f' inv (fake_values meta a) (unique_filters f') (build_tree f') fp) in *.
  assert (Z : exists o1, bind (if ob_contains (mkObs f' inv (fake_values meta a) (unique_filters f') [] fp) "zp"
      then Ok (mkObs f' inv (fake_values meta a) (unique_filters f') [] fp)
      else fake_zero_points (fa_zp a) (mkObs f' inv (fake_values meta a) (unique_filters f') [] fp))
      (fun o => Ok (mkObs (ob_frame o) (ob_inv o) (ob_values o) (ob_filters o) (build_tree (ob_frame o)) (ob_footprint o))) = Ok o1 /\
      grows b o1 /\ tinv o1 /\ (forall c, In c (columns (ob_frame o1)) -> c = "zp"%string \/ In c (columns f'))).
  { destruct (ob_contains (mkObs f' inv (fake_values meta a) (unique_filters f') [] fp) "zp") eqn:EZ.
    - eexists. split; [reflexivity|]. cbn [ob_frame ob_inv ob_values ob_filters ob_footprint]. split; [apply grows_refl|]. split; auto.
    - destruct HZ as [HZ|(m & EM & POS & COV)]; [change (ob_contains (mkObs f' inv (fake_values meta a) (unique_filters f') [] fp) "zp" = true) in HZ; congruence|].
      assert (X : exists o, fake_zero_points (fa_zp a) (mkObs f' inv (fake_values meta a) (unique_filters f') [] fp) = Ok o).
      { unfold fake_zero_points. cbv zeta. cbn [ob_frame ob_filters]. destruct (dmem "zp" (f_cols f')) eqn:ED; [eauto|]. rewrite EM.
        replace (dmem "filter" (f_cols f')) with true by (symmetry; now apply dmem_true). cbn [negb].
        replace (forallb (fun fil => dmem fil m) (unique_filters f')) with true by (symmetry; apply forallb_forall; auto). cbn [negb].
        destruct (proj2 (proj1 (zp_fill_accepts (filter_cells f') m (repeat 0 (nrows f')))) POS) as (vals & EV). rewrite EV. cbn [bind].
        destruct (zp_fill (filter_cells f') m (repeat 0 (nrows f')) vals) as (L & _); auto.
        - rewrite repeat_length. symmetry. exact (cells_len b TB HF).
        - now apply (proj2 AO).
        - apply (C66_add_column_accepts (mkObs f' inv (fake_values meta a) (unique_filters f') [] fp)); [auto|]. intros l El. inversion El; subst.
          rewrite map_length, L. exact (cells_len b TB HF). }
      destruct X as (o & EO). rewrite EO. cbn [bind]. eexists. split; [reflexivity|].
      pose proof (zero_tree _ _ _ _ _ _ _ EO) as ET. destruct (zero_spec _ _ _ TB CB (proj2 AO) ET) as (Z1 & Z2 & Z3 & Z4 & _). auto. }
  destruct Z as (o1 & EZ & G1 & T1 & O1).
  destruct (if ob_contains (mkObs f' inv (fake_values meta a) (unique_filters f') [] fp) "zp" then _ else _) as [oz|]; [|discriminate].
  cbn [bind] in *. injection EZ as EZ. rewrite HC. cbn [fake_const bind]. rewrite EZ.
  assert (GV : forall k v, In (k, v) (fake_kwargs a) -> dget k (ob_values o1) = Some v).
  { intros k v HI. rewrite (gr_values _ _ G1). cbn [ob_values b]. now apply fake_value_get. }
  assert (HF1 : In "filter"%string (columns (ob_frame o1))) by (apply (gr_cols _ _ G1); exact HF).
  pose proof (grows_covers _ _ G1 HF CB) as C1.
  assert (NX : forall o name cp val, grows o1 o -> tinv o -> In (name, val) (fake_kwargs a) -> usable (mkObs f' inv (merge_values meta []) (unique_filters f') (build_tree f') fp) name cp val ->
    exists o', needs o name cp = Ok o').
  { intros o name cp val GO TO HI HU. pose proof (grows_trans _ _ _ G1 GO) as GG. apply needs_accepts with (val := val); auto.
    - apply (gr_cols _ _ GO); auto.
    - rewrite (gr_values _ _ GO). now apply GV.
    - destruct HU as [HU|(U1 & U2 & U3)]; [left; apply dmem_true; apply (gr_cols _ _ GG); exact HU|]. right. split; auto. split; auto.
      intros fil HI'. apply U3. rewrite (gr_filters _ _ GG) in HI'. exact HI'. }
  assert (K : exists o', fake_noise_columns o1 = Ok o'); [|destruct K as (o' & EK); rewrite EK; cbn [bind]; eauto].
  unfold fake_noise_columns.
  destruct (NX o1 "exptime"%string true (fa_exptime a) (grows_refl _) T1) as (o2 & E2); [unfold fake_kwargs; simpl; tauto|auto|]. rewrite E2. cbn [bind]. apply needs_ok in E2.
  destruct (assign_spec _ _ _ _ T1 C1 E2) as (G2 & T2 & _ & O2 & _). pose proof (gr_cols _ _ G2 _ HF1) as HF2. pose proof (grows_covers _ _ G2 HF1 C1) as C2.
  destruct (NX o2 "nexposure"%string true (fa_nexp a) G2 T2) as (o3 & E3); [unfold fake_kwargs; simpl; tauto|auto|]. rewrite E3. cbn [bind]. apply needs_ok in E3.
  destruct (assign_spec _ _ _ _ T2 C2 E3) as (G3 & T3 & _ & O3 & _). pose proof (gr_cols _ _ G3 _ HF2) as HF3. pose proof (grows_covers _ _ G3 HF2 C2) as C3.
  pose proof (grows_trans _ _ _ G2 G3) as G13.
  assert (W : exists o4, bind (assign_constant o3 "psf_footprint" true) (fun r => if fst r then Ok (snd r) else
      bind (needs (snd r) "fwhm_px" true) (fun o => add_column o "psf_footprint"
          (ColList (map (fun w => CNum (gauss_area * (w * w))) (num_col "fwhm_px" (ob_frame o)))) false)) = Ok o4 /\ grows o3 o4 /\ tinv o4).
  { destruct Uw as [Uw|[Ew Uw]].
    - destruct (NX o3 "psf_footprint"%string true (fa_footprint a) G13 T3) as (o4 & E4); [unfold fake_kwargs; simpl; tauto|auto|].
      apply needs_ok in E4. rewrite E4. cbn [bind fst snd]. exists o4. destruct (assign_spec _ _ _ _ T3 C3 E4) as (G4 & T4 & _). auto.
    - destruct (dmem "psf_footprint" (f_cols (ob_frame o3))) eqn:ED.
      + rewrite C66_existing_column_kept by auto. cbn [bind fst snd]. exists o3. split; auto. split; auto. apply grows_refl.
      + rewrite C66_no_value; auto.
        2:{ right. rewrite (gr_values _ _ G13). rewrite <- Ew. apply GV. unfold fake_kwargs. simpl. tauto. }
        cbn [bind fst snd]. destruct (NX o3 "fwhm_px"%string true (fa_fwhm a) G13 T3) as (o4 & E4); [unfold fake_kwargs; simpl; tauto|auto|]. rewrite E4. cbn [bind]. apply needs_ok in E4.
        destruct (assign_spec _ _ _ _ T3 C3 E4) as (G4 & T4 & I4 & O4 & _).
        assert (ED4 : dmem "psf_footprint" (f_cols (ob_frame o4)) = false).
        { apply dmem_false. intros X. destruct (O4 _ X) as [Y|Y]; [discriminate|]. apply dmem_false in ED. tauto. }
        destruct (proj1 (proj2 (C66_add_column_accepts o4 "psf_footprint" (ColList (map (fun w => CNum (gauss_area * (w * w))) (num_col "fwhm_px" (ob_frame o4)))) false)) (or_introl ED4)) as (o5 & E5).
        { intros l El. inversion El; subst. rewrite map_length. unfold num_col. apply dget_keys in I4. destruct (dget "fwhm_px" (f_cols (ob_frame o4))) as [c|] eqn:EC; [|congruence].
          rewrite map_length. destruct (ti_frame o4 T4) as [_ FF]. rewrite Forall_forall in FF. now apply (FF ("fwhm_px"%string, c)), dget_In. }
        exists o5. split; auto. destruct (add_grows _ _ _ _ _ ED4 E5) as (G5 & _). split; [eapply grows_trans; eauto|]. eapply add_column_inv; eauto; discriminate. }
  destruct W as (o4 & E4 & G4 & T4). rewrite E4. cbn [bind].
  apply (NX o4 "sky"%string false (fa_sky a)); auto; [eapply grows_trans; eauto|unfold fake_kwargs; simpl; tauto].
Qed.
Lemma make_value_error : forall f cm meta a fp o0, ob_make f cm meta [] fp = Ok o0 -> ob_contains o0 "zp" = false ->
  fake_zero_points (fa_zp a) (mkObs (ob_frame o0) (ob_inv o0) (fake_values meta a) (ob_filters o0) [] fp) = Err ValueError ->
  fake_make f cm meta a fp = Err ValueError.
Proof.
  intros f cm meta a fp o0 E0 HZ HE. unfold fake_make. unfold ob_make in E0. destruct (remap cm f) as [[f' inv]|]; [|discriminate]. cbn [bind] in *.
  destruct (forallb _ required); [|discriminate]. injection E0 as <-. cbn [negb ob_frame ob_inv ob_filters] in *. cbv zeta.
  change (ob_contains (mkObs f' inv (fake_values meta a) (unique_filters f') [] fp) "zp" = false) in HZ. rewrite HZ, HE. reflexivity.
Qed.
(** Zero points that are missing for a filter of the table, or not positive, are refused. *)
Theorem C71_zero_points_refused : forall f cm meta a fp o0, ob_make f cm meta [] fp = Ok o0 -> ob_contains o0 "zp" = false ->
  (fa_zp a = None \/ (exists m fil, fa_zp a = Some m /\ In fil (ob_filters o0) /\ ~ In fil (dkeys m)) \/
   (exists m fil v, fa_zp a = Some m /\ In (fil, v) m /\ v <= 0)) ->
  fake_make f cm meta a fp = Err ValueError.
Proof.
  intros f cm meta a fp o0 E0 HZ HB. apply (make_value_error _ _ _ _ _ _ E0 HZ). unfold fake_zero_points. cbv zeta. cbn [ob_frame ob_filters].
  unfold ob_contains in HZ. apply orb_false_elim in HZ. destruct HZ as [-> _].
  destruct HB as [->|[(m & fil & -> & HI & HN)|(m & fil & v & -> & HI & HV)]]; [reflexivity| |].
  - destruct (negb (dmem "filter" _)); [reflexivity|]. replace (forallb (fun fil => dmem fil m) (ob_filters o0)) with false; [reflexivity|].
    symmetry. apply not_true_is_false. intros X. rewrite forallb_forall in X. apply X in HI. apply dmem_true in HI. contradiction.
  - destruct (negb (dmem "filter" _)); [reflexivity|]. destruct (negb _); [reflexivity|].
    destruct (zp_fill_accepts (filter_cells (ob_frame o0)) m (repeat 0 (nrows (ob_frame o0)))) as [A B].
    destruct (fold_res _ _ _) as [vals|e] eqn:E; [|cbn [bind]; f_equal; eauto]. exfalso.
    assert (X : Forall (fun kv : string * R => 0 < snd kv) m) by (apply A; eauto). rewrite Forall_forall in X. apply X in HI. simpl in HI. lra.
Qed.
(** A constant error that misses a filter of the table, or is negative, is refused. *)
Theorem C71_constant_refused : forall f cm meta a fp o0 m, ob_make f cm meta [] fp = Ok o0 -> fa_const a = CFMap m ->
  ((exists fil, In fil (ob_filters o0) /\ ~ In fil (dkeys m)) \/ (exists fil v, In (fil, v) m /\ v < 0)) ->
  forall k, fake_make f cm meta a fp <> Ok k.
Proof.
  intros f cm meta a fp o0 m E0 HC HB k H. destruct (make_stages _ _ _ _ _ _ H) as (o0' & E0' & M). rewrite E0 in E0'. injection E0' as <-. cbv zeta in M.
  destruct M as (o1 & _ & c & M2 & _). rewrite HC in M2. unfold fake_const in M2. cbv zeta in M2.
  destruct HB as [(fil & HI & HN)|(fil & v & HI & HV)].
  - replace (forallb (fun fil => dmem fil m) (ob_filters o0)) with false in M2; [discriminate|].
    symmetry. apply not_true_is_false. intros X. rewrite forallb_forall in X. apply X in HI. apply dmem_true in HI. contradiction.
  - destruct (negb _); [discriminate|]. replace (existsb (fun kv : string * R => Rltb (snd kv) 0) m) with true in M2; [discriminate|].
    symmetry. apply existsb_exists. exists (fil, v). split; auto. now apply Rltb_true.
Qed.
(** Without a constant error and without sky, or without footprint and width, there is no table. *)
Theorem C71_missing_refused : forall f cm meta a fp o0, frame_ok f -> (forall d, cm = Some d -> NoDup (dkeys d)) -> args_ok a ->
  ob_make f cm meta [] fp = Ok o0 -> In "filter"%string (columns (ob_frame o0)) -> (exists i s, cell_at o0 "filter" i = Some (CStr s)) ->
  fa_const a = CFNone ->
  (exists name val, In (name, val) [("exptime", fa_exptime a); ("nexposure", fa_nexp a); ("sky", fa_sky a)]%string /\
     ~ In name (columns (ob_frame o0)) /\ val = SNone) \/
  (~ In "psf_footprint"%string (columns (ob_frame o0)) /\ ~ In "fwhm_px"%string (columns (ob_frame o0)) /\ fa_footprint a = SNone /\ fa_fwhm a = SNone) ->
  forall k, fake_make f cm meta a fp <> Ok k.
Proof.
  intros f cm meta a fp o0 F ND AO E0 HF (i & s & HS) HC HB k H. destruct (make_grows _ _ _ _ _ _ _ F ND AO E0 HF H) as (G & T & _ & _ & _ & N).
  destruct (N (proj2 (make_const _ _ _ _ _ _ H) HC)) as [NI NV]. destruct (NV i s HS) as (N1 & N2 & N3 & N4).
  assert (LI : (i < nrows (ob_frame (fk_obs k)))%nat).
  { rewrite (grows_nrows _ _ G). cbn [ob_frame]. eapply cell_lt; eauto. eapply make_inv_obs; eauto. }
  assert (DEF : forall c, In c (columns (ob_frame (fk_obs k))) -> num_at (fk_obs k) c i <> None).
  { intros c Hc. destruct (num_at_Some (fk_obs k) c i T Hc LI) as (v & E). congruence. }
  assert (UN : forall name, ~ In name (columns (ob_frame o0)) -> user_value o0 name SNone i = None).
  { intros name HN. unfold user_value. apply dmem_false in HN. rewrite HN, HS. reflexivity. }
  destruct HB as [(name & val & HI & HN & ->)|(H1 & H2 & H3 & H4)].
  - destruct HI as [HI|[HI|[HI|[]]]]; injection HI as <- HV.
    + apply (DEF "exptime"%string); [apply NI; simpl; auto|]. rewrite N1, HV. now apply UN.
    + apply (DEF "nexposure"%string); [apply NI; simpl; auto|]. rewrite N2, HV. now apply UN.
    + apply (DEF "sky"%string); [apply NI; simpl; auto|]. rewrite N4, HV. now apply UN.
  - apply (DEF "psf_footprint"%string); [apply NI; simpl; auto|]. rewrite N3. unfold user_footprint. rewrite H3, H4. apply dmem_false in H1. rewrite H1. cbn [orb].
    now rewrite UN.
Qed.
(** Finding: survey values in the table's metadata are always overridden, even for arguments the user does not pass. *)
Theorem C71_metadata_ignored_refuted : forall meta meta' a k, NoDup (dkeys (fake_kwargs a)) ->
  In k ["dark_current"; "exptime"; "psf_footprint"; "fwhm_px"; "nexposure"; "radius"; "read_noise"; "sky"]%string ->
  dget k (fake_values meta a) = dget k (fake_values meta' a).
Proof.
  intros meta meta' a k ND HK. unfold fake_values. rewrite !fold_dset_get, !dget_rev by auto.
  destruct (dget k (fake_kwargs a)) eqn:E; auto. exfalso. apply dget_None in E. apply E. unfold fake_kwargs. unfold dkeys. rewrite map_app. apply in_or_app. left. exact HK.
Qed.
(** A table of two rows. *)
Definition two_bands : frame := mkFrame [0; 1]%nat
  [("ra", [CNum 10; CNum 20]); ("dec", [CNum 0; CNum 5]); ("time", [CNum 1; CNum 2]); ("filter", [CStr "g"; CStr "r"])]%string.
Lemma two_bands_ok : frame_ok two_bands.
Proof. split; [|repeat constructor]. unfold columns. simpl. repeat constructor; simpl; intuition discriminate. Qed.
Definition plain_two : obstable :=
  mkObs two_bands [] (merge_values [] []) ["g"; "r"]%string (build_tree two_bands) None.
Lemma plain_two_make : ob_make two_bands None [] [] None = Ok plain_two.
Proof. reflexivity. Qed.
Lemma plain_two_filters : has_filters plain_two.
Proof. intros i H. unfold nrows in H. simpl in H. destruct i as [|[|i]]; [exists "g"%string; reflexivity|exists "r"%string; reflexivity|lia]. Qed.
Definition example_args (sky : R) : fake_args :=
  mkFake (Some [("g", 1); ("r", 2)]%string) CFNone (SNum 0) (SNum 30) SNone (SMap [("g", 2); ("r", 3)]%string) (SNum 1) SNone (SNum 0) (SNum sky) [].
Lemma example_args_ok : forall sky, args_ok (example_args sky).
Proof. intros sky. split; [|intros m E; inversion E; subst]; unfold dkeys; simpl; repeat constructor; simpl; intuition discriminate. Qed.
Lemma example_made : forall sky, exists k, fake_make two_bands None [] (example_args sky) None = Ok k.
Proof.
  intros sky.
  assert (U : forall name cp (r : R), (cp = true -> 0 < r) -> usable plain_two name cp (SNum r)).
  { intros name cp r HR. right. split; [discriminate|]. split; [discriminate|]. intros fil _. exists r. auto. }
  apply (C71_accepts two_bands None [] (example_args sky) None plain_two); auto using two_bands_ok, plain_two_make, example_args_ok; try discriminate.
  - simpl. tauto.
  - right. exists [("g", 1); ("r", 2)]%string. split; [reflexivity|]. split; [repeat constructor; simpl; lra|]. intros fil [<-|[<-|[]]]; reflexivity.
  - apply U. intros _. lra.
  - apply U. intros _. lra.
  - apply U. discriminate.
  - right. split; [reflexivity|]. right. split; [discriminate|]. split; [discriminate|]. intros fil [<-|[<-|[]]]; [exists 2|exists 3]; split; auto; intros _; lra.
Qed.
Example C71_case : exists k out, fake_make two_bands None [] (example_args 100) None = Ok k /\ fake_error k [50; 10] [1; 0]%nat = Ok out /\
  nth_error out 0 = Some (poisson_std 50 30 1 (PI / (2 * ln 2) * 3 ^ 2) 100 2 (RNum 0) 0) /\
  nth_error out 1 = Some (poisson_std 10 30 1 (PI / (2 * ln 2) * 2 ^ 2) 100 1 (RNum 0) 0).
Proof.
  destruct (example_made 100) as (k & EK). exists k.
  destruct (C71_noise two_bands None [] (example_args 100) None k plain_two [50; 10] [1; 0]%nat) with (rn := 0) (dk := 0) as (out & EO & _ & HO);
    auto using two_bands_ok, plain_two_make, example_args_ok, plain_two_filters; try discriminate.
  - intros i [<-|[<-|[]]]; unfold nrows; simpl; lia.
  - simpl. tauto.
  - exists out. split; auto. split; auto. split.
    + destruct (HO 0%nat 50 1%nat eq_refl eq_refl) as (t & n & w & sky & zp & H1 & H2 & H3 & H4 & H5 & ->).
      cbv in H1, H2, H4, H5. injection H1 as <-. injection H2 as <-. injection H4 as <-. injection H5 as <-.
      change (Some (PI / (2 * ln 2) * 3 ^ 2) = Some w) in H3. injection H3 as <-. reflexivity.
    + destruct (HO 1%nat 10 0%nat eq_refl eq_refl) as (t & n & w & sky & zp & H1 & H2 & H3 & H4 & H5 & ->).
      cbv in H1, H2, H4, H5. injection H1 as <-. injection H2 as <-. injection H4 as <-. injection H5 as <-.
      change (Some (PI / (2 * ln 2) * 2 ^ 2) = Some w) in H3. injection H3 as <-. reflexivity.
Qed.
Example C71_constant_case : exists k out, fake_make two_bands None [] (mkFake (Some [("g", 1); ("r", 2)]%string) (CFMap [("g", 5); ("r", 7)]%string)
    (SNum 0) (SNum 30) SNone SNone (SNum 1) SNone (SNum 0) SNone []) None = Ok k /\
  fake_error k [50; 10; 3] [1; 0; 1]%nat = Ok out /\ out = [Some 7; Some 5; Some 7].
Proof.
  set (a := mkFake _ _ _ _ _ _ _ _ _ _ _).
  assert (EK : exists k, fake_make two_bands None [] a None = Ok k).
  { unfold fake_make, a. simpl. unfold fake_zero_points. simpl. replace (Rleb 1 0) with false by (symmetry; apply Rleb_false; lra).
    replace (Rleb 2 0) with false by (symmetry; apply Rleb_false; lra). simpl. unfold fake_const. simpl.
    replace (Rltb 5 0) with false by (symmetry; apply Rltb_false; lra). replace (Rltb 7 0) with false by (symmetry; apply Rltb_false; lra). simpl. eauto. }
  destruct EK as (k & EK). exists k.
  destruct (C71_constant two_bands None [] a None k plain_two [50; 10; 3] [1; 0; 1]%nat) as (out & EO & LO & HO);
    auto using two_bands_ok, plain_two_make, plain_two_filters; try discriminate.
  - split; [|intros m E; inversion E; subst]; unfold dkeys; simpl; repeat constructor; simpl; intuition discriminate.
  - simpl. tauto.
  - intros i [<-|[<-|[<-|[]]]]; unfold nrows; simpl; lia.
  - exists out. split; auto. split; auto. apply nth_error_same. intros [|[|[|j]]].
    + destruct (HO 0%nat 1%nat "r"%string eq_refl eq_refl) as (v & E1 & _ & ->). change (Some 7 = Some v) in E1. rewrite <- E1. reflexivity.
    + destruct (HO 1%nat 0%nat "g"%string eq_refl eq_refl) as (v & E1 & _ & ->). change (Some 5 = Some v) in E1. rewrite <- E1. reflexivity.
    + destruct (HO 2%nat 1%nat "r"%string eq_refl eq_refl) as (v & E1 & _ & ->). change (Some 7 = Some v) in E1. rewrite <- E1. reflexivity.
    + assert (X : nth_error out (S (S (S j))) = None) by (apply nth_error_None; rewrite LO; simpl; lia). rewrite X. now destruct j.
Qed.
(** Finding: a negative sky level is accepted and makes the error of a faint source undefined. *)
Theorem C71_negative_sky_refuted : exists a k out, fa_sky a = SNum (-100) /\ fake_make two_bands None [] a None = Ok k /\
  fake_error k [0] [0]%nat = Ok out /\ nth_error out 0 = Some None.
Proof.
  destruct (example_made (-100)) as (k & EK). exists (example_args (-100)), k.
  destruct (C71_noise two_bands None [] (example_args (-100)) None k plain_two [0] [0]%nat) with (rn := 0) (dk := 0) as (out & EO & _ & HO);
    auto using two_bands_ok, plain_two_make, example_args_ok, plain_two_filters; try discriminate.
  - intros i [<-|[]]; unfold nrows; simpl; lia.
  - simpl. tauto.
  - exists out. split; [reflexivity|]. split; auto. split; auto.
    destruct (HO 0%nat 0 0%nat eq_refl eq_refl) as (t & n & w & sky & zp & H1 & H2 & H3 & H4 & H5 & ->).
    change (Some 30 = Some t) in H1. change (Some 1 = Some n) in H2. change (Some (-100) = Some sky) in H4. change (Some 1 = Some zp) in H5. injection H1 as <-. injection H2 as <-. injection H4 as <-. injection H5 as <-.
    change (Some (PI / (2 * ln 2) * 2 ^ 2) = Some w) in H3. injection H3 as <-. unfold poisson_std.
    pose proof gauss_bounds as GB. unfold gauss_area in GB.
    replace (Reqb 1 0) with false by (symmetry; apply Reqb_false; lra).
    match goal with |- context [Rltb ?t 0] => replace (Rltb t 0) with true; [reflexivity|] end. symmetry. apply Rltb_true. lra.
Qed.
(** Finding: without a filter column the constants of the noise model are silently zero: a survey with sky level 100
    is accepted and reports a vanishing error for a source without flux. *)
Theorem C71_no_filter_refuted : exists f a k, fa_sky a = SNum 100 /\ fa_footprint a = SNum 4 /\ fa_exptime a = SNum 30 /\
  fake_make f None [] a None = Ok k /\ fake_error k [0] [0]%nat = Ok [Some 0].
Proof.
  exists (mkFrame [0%nat] [("ra", [CNum 0]); ("dec", [CNum 0]); ("time", [CNum 0]); ("zp", [CNum 1])]%string).
  exists (mkFake None CFNone (SNum 0) (SNum 30) (SNum 4) SNone (SNum 1) SNone (SNum 0) (SNum 100) []).
  eexists. split; [reflexivity|]. split; [reflexivity|]. split; [reflexivity|]. split.
  { unfold fake_make. with_strategy opaque [build_tree fake_noise_columns] simpl. unfold fake_noise_columns, needs, assign_constant. with_strategy opaque [build_tree] simpl. reflexivity. }
  unfold fake_error. simpl. unfold poisson_std.
  replace (Reqb 1 0) with false by (symmetry; apply Reqb_false; lra).
  match goal with |- context [Rltb ?t 0] => replace t with 0 by field; replace (Rltb 0 0) with false by (symmetry; apply Rltb_false; lra) end.
  rewrite sqrt_0. repeat f_equal. ring.
Qed.
(** Finding: a column map that renames a column called zp leaves a table whose errors cannot be computed. *)
Theorem C71_renamed_zero_point_refuted : exists f a k, frame_ok f /\
  fake_make f (Some [("zeropoint", "zp")]%string) [] a None = Ok k /\ forall flux, fake_error k flux [0]%nat = Err KeyError.
Proof.
  exists (mkFrame [0%nat] [("ra", [CNum 0]); ("dec", [CNum 0]); ("time", [CNum 0]); ("filter", [CStr "g"]); ("zp", [CNum 1])]%string).
  exists (mkFake None CFNone (SNum 0) (SNum 30) (SNum 4) SNone (SNum 1) SNone (SNum 0) (SNum 100) []).
  eexists. split; [split; [|repeat constructor]; unfold columns; simpl; repeat constructor; simpl; intuition discriminate|].
  split.
  - unfold fake_make. simpl. unfold fake_noise_columns, needs, assign_constant. simpl.
    replace (Rleb 30 0) with false by (symmetry; apply Rleb_false; lra). simpl.
    replace (Rleb 1 0) with false by (symmetry; apply Rleb_false; lra). simpl.
    replace (Rleb 4 0) with false by (symmetry; apply Rleb_false; lra). simpl. reflexivity.
  - intros flux. reflexivity.
Qed.
