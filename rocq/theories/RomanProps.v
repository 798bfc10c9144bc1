(** C74: Roman's observation table. *)
From Coq Require Import Reals String List Bool Arith Lia Lra.
From Verif Require Import Base BaseFacts RealBase ObsTableModel ObsTableProps ObsTableMore NoiseModel NoiseProps FakeModel FakeProps SurveyModel SurveyProps RomanModel.
Import ListNotations.
Open Scope R_scope.

(** ** Specification *)
(** [v] is the value of the first row of [t] for [k]. *)
Definition listed {K} (t : list (K * R)) (k : K) (v : R) : Prop := exists a b, t = a ++ (k, v) :: b /\ ~ In k (map fst a).
(** How many different numbers of the list are smaller. *)
Definition rank (p : R) (l : list R) : nat := length (nodup Req_EM_T (filter (fun q => Rltb q p) l)).
(** The cell of a table. *)
Definition cell_f (f : frame) (name : string) (i : nat) : option cell := match dget name (f_cols f) with Some c => nth_error c i | None => None end.

Lemma first_row_listed : forall K (eqb : K -> K -> bool) k t v, (forall a b, eqb a b = true <-> a = b) -> first_row eqb k t = Ok v <-> listed t k v.
Proof.
  intros K eqb k t v HE. unfold first_row, listed. induction t as [|[k' v'] t IH]; cbn [filter fst].
  - split; [discriminate|]. intros (a & b & E & _). destruct a; discriminate.
  - destruct (eqb k' k) eqn:E.
    + apply HE in E. subst k'. cbn [snd]. split.
      * intros H. injection H as <-. exists [], t. split; auto.
      * intros (a & b & EA & N). destruct a as [|[k2 v2] a]; simpl in EA; [now inversion EA|]. inversion EA; subst. exfalso. apply N. simpl. auto.
    + rewrite IH. split.
      * intros (a & b & -> & N). exists ((k', v') :: a), b. split; auto. simpl. intros [->|I]; [|contradiction]. rewrite (proj2 (HE k k) eq_refl) in E. discriminate.
      * intros (a & b & EA & N). destruct a as [|[k2 v2] a]; simpl in EA; inversion EA; subst.
        -- rewrite (proj2 (HE k k) eq_refl) in E. discriminate.
        -- exists a, b. split; auto. intros I. apply N. simpl. auto.
Qed.
Lemma first_row_missing : forall K (eqb : K -> K -> bool) k t, (forall a b, eqb a b = true <-> a = b) -> (exists v, first_row eqb k t = Ok v) <-> In k (map fst t).
Proof.
  intros K eqb k t HE. unfold first_row. induction t as [|[k' v'] t IH]; cbn [filter fst map].
  - split; [intros (v & H); discriminate|intros []].
  - destruct (eqb k' k) eqn:E.
    + apply HE in E. subst. split; [simpl; auto|eauto].
    + rewrite IH. simpl. split; auto. intros [->|I]; auto. rewrite (proj2 (HE k k) eq_refl) in E. discriminate.
Qed.
Lemma first_row_err : forall K (eqb : K -> K -> bool) k t e, first_row eqb k t = Err e -> e = IndexError.
Proof. intros K eqb k t e H. unfold first_row in H. destruct (filter _ t); [now inversion H|discriminate]. Qed.
Lemma Reqb_iff : forall a b, Reqb a b = true <-> a = b.
Proof. intros. apply Reqb_true. Qed.

(** ** Column updates *)
Lemma set_rows_nth : forall m v c i, length m = length c -> nth_error (set_rows m v c) i = match nth_error m i with Some true => Some (CNum v) | _ => nth_error c i end.
Proof.
  intros m v c i H. unfold set_rows. rewrite nth_error_map, nth_error_combine. destruct (nth_error m i) as [b|] eqn:E1.
  - destruct (nth_error c i) as [x|] eqn:E2; [destruct b; reflexivity|]. apply nth_error_None in E2. assert ((i < length m)%nat) by (apply nth_error_Some; congruence). lia.
  - apply nth_error_None in E1. symmetry. apply nth_error_None. lia.
Qed.
Lemma set_rows_length : forall m v c, length m = length c -> length (set_rows m v c) = length c.
Proof. intros. unfold set_rows. rewrite map_length, combine_length. lia. Qed.
Lemma set_col_spec : forall name m v f, frame_ok f -> length m = nrows f -> In name (columns f) ->
  frame_ok (set_col name m v f) /\ f_labels (set_col name m v f) = f_labels f /\ columns (set_col name m v f) = columns f /\
  (forall i, cell_f (set_col name m v f) name i = match nth_error m i with Some true => Some (CNum v) | _ => cell_f f name i end) /\
  (forall c i, c <> name -> cell_f (set_col name m v f) c i = cell_f f c i).
Proof.
  intros name m v f [N F] L I. pose proof I as I'. apply dget_keys in I'. unfold set_col. destruct (dget name (f_cols f)) as [c0|] eqn:E; [|congruence].
  rewrite Forall_forall in F. pose proof (F _ (dget_In _ _ _ _ E)) as L0. cbn [snd] in L0. rewrite <- Forall_forall in F.
  assert (LC : length (set_rows m v c0) = nrows f) by (rewrite set_rows_length; congruence).
  split; [split|]; [unfold columns; cbn [f_cols]; now apply NoDup_dset|apply dset_cols_Forall; auto|].
  split; [reflexivity|]. split; [|split].
  - unfold columns. cbn [f_cols]. rewrite dkeys_dset. apply dmem_true in I. now rewrite I.
  - intros i. unfold cell_f. cbn [f_cols]. rewrite dget_dset_same, E. apply set_rows_nth. congruence.
  - intros c i Hc. unfold cell_f. cbn [f_cols]. now rewrite dget_dset_other.
Qed.
Lemma whole_col_spec : forall name c f, frame_ok f -> length c = nrows f ->
  frame_ok (whole_col name c f) /\ f_labels (whole_col name c f) = f_labels f /\ (forall x, In x (columns (whole_col name c f)) <-> x = name \/ In x (columns f)) /\
  (forall i, cell_f (whole_col name c f) name i = nth_error c i) /\ (forall x i, x <> name -> cell_f (whole_col name c f) x i = cell_f f x i).
Proof.
  intros name c f [N F] L. unfold whole_col. split; [split|]; [unfold columns; cbn [f_cols]; now apply NoDup_dset|apply dset_cols_Forall; auto|].
  split; [reflexivity|]. split; [|split].
  - intros x. unfold columns. cbn [f_cols]. apply In_dkeys_dset.
  - intros i. unfold cell_f. cbn [f_cols]. now rewrite dget_dset_same.
  - intros x i Hx. unfold cell_f. cbn [f_cols]. now rewrite dget_dset_other.
Qed.
Record kept_frame (names : list string) (f f' : frame) : Prop := {
  kf_ok : frame_ok f'; kf_labels : f_labels f' = f_labels f; kf_cols : columns f' = columns f;
  kf_cells : forall c i, ~ In c names -> cell_f f' c i = cell_f f c i
}.
Lemma kept_refl : forall names f, frame_ok f -> kept_frame names f f.
Proof. split; auto. Qed.
Lemma kept_trans : forall names a b c, kept_frame names a b -> kept_frame names b c -> kept_frame names a c.
Proof. intros names a b c [A1 A2 A3 A4] [B1 B2 B3 B4]. split; auto; try congruence. intros x i H. rewrite B4, A4; auto. Qed.
Lemma set_col_kept : forall names name m v f, In name names -> frame_ok f -> length m = nrows f -> In name (columns f) -> kept_frame names f (set_col name m v f).
Proof.
  intros names name m v f HI F L C. destruct (set_col_spec name m v f F L C) as (A & B & D & _ & E). split; auto. intros c i H. apply E. intros ->. contradiction.
Qed.
Definition four : list string := ["zp_abmag"; "N_Eff_Pix"; "zodi_countrate_min"; "thermal_countrate"]%string.
Definition four_tables (ch : rchar) : list (string * list (string * R)) :=
  [("zp_abmag", rc_zp ch); ("N_Eff_Pix", rc_psf ch); ("zodi_countrate_min", rc_zodi ch); ("thermal_countrate", rc_thermal ch)]%string.
Lemma text_is_spec : forall s c, text_is s c = true <-> c = CStr s.
Proof. intros s [r|t|]; simpl; split; intros H; try discriminate; [apply String.eqb_eq in H; now subst|injection H as ->; apply String.eqb_refl]. Qed.
Lemma num_is_spec : forall r c, num_is r c = true <-> c = CNum r.
Proof. intros r [t|t|]; simpl; split; intros H; try discriminate; [apply Reqb_true in H; now subst|injection H as ->; now apply Reqb_true]. Qed.
Lemma mask_at : forall (p : cell -> bool) c i x, nth_error c i = Some x -> nth_error (map p c) i = Some (p x).
Proof. intros. now rewrite nth_error_map, H. Qed.
Lemma band_step_spec : forall ch bp f b f', frame_ok f -> length bp = nrows f -> (forall c, In c four -> In c (columns f)) -> band_step ch bp f b = Ok f' ->
  kept_frame four f f' /\
  forall c tab, In (c, tab) (four_tables ch) -> exists v, first_row String.eqb b tab = Ok v /\
    forall i x, nth_error bp i = Some x -> (x = CStr b -> cell_f f' c i = Some (CNum v)) /\ (x <> CStr b -> cell_f f' c i = cell_f f c i).
Proof.
  intros ch bp f b f' F L C H. unfold band_step in H. cbv zeta in H. set (m := map (text_is b) bp) in *. assert (LM : length m = nrows f) by (unfold m; now rewrite map_length).
  destruct (first_row _ b (rc_zp ch)) as [v1|] eqn:E1; [|discriminate]. cbn [bind] in H. destruct (first_row _ b (rc_psf ch)) as [v2|] eqn:E2; [|discriminate]. cbn [bind] in H.
  destruct (first_row _ b (rc_zodi ch)) as [v3|] eqn:E3; [|discriminate]. cbn [bind] in H. destruct (first_row _ b (rc_thermal ch)) as [v4|] eqn:E4; [|discriminate]. cbn [bind] in H. injection H as <-.
  set (f1 := set_col "zp_abmag" m v1 f). set (f2 := set_col "N_Eff_Pix" m v2 f1). set (f3 := set_col "zodi_countrate_min" m v3 f2).
  destruct (set_col_spec "zp_abmag"%string m v1 f F LM ltac:(apply C; simpl; tauto)) as (A1 & B1 & D1 & G1 & H1). fold f1 in A1, B1, D1, G1, H1.
  assert (N1 : nrows f1 = nrows f) by (unfold nrows; now rewrite B1).
  destruct (set_col_spec "N_Eff_Pix"%string m v2 f1 A1 ltac:(congruence) ltac:(rewrite D1; apply C; simpl; tauto)) as (A2 & B2 & D2 & G2 & H2). fold f2 in A2, B2, D2, G2, H2.
  assert (N2 : nrows f2 = nrows f) by (unfold nrows in *; now rewrite B2).
  destruct (set_col_spec "zodi_countrate_min"%string m v3 f2 A2 ltac:(congruence) ltac:(rewrite D2, D1; apply C; simpl; tauto)) as (A3 & B3 & D3 & G3 & H3). fold f3 in A3, B3, D3, G3, H3.
  assert (N3 : nrows f3 = nrows f) by (unfold nrows in *; now rewrite B3).
  destruct (set_col_spec "thermal_countrate"%string m v4 f3 A3 ltac:(congruence) ltac:(rewrite D3, D2, D1; apply C; simpl; tauto)) as (A4 & B4 & D4 & G4 & H4).
  split.
  - split; auto; try congruence. intros c i HN. unfold four in HN. simpl in HN. rewrite H4, H3, H2, H1; auto; intros ->; tauto.
  - assert (MM : forall i x, nth_error bp i = Some x -> (x = CStr b -> nth_error m i = Some true) /\ (x <> CStr b -> nth_error m i = Some false)).
    { intros i x Hx. unfold m. rewrite (mask_at _ _ _ _ Hx). split; intros E.
      - now rewrite (proj2 (text_is_spec b x) E).
      - destruct (text_is b x) eqn:ET; auto. apply text_is_spec in ET. contradiction. }
    intros c tab [X|[X|[X|[X|[]]]]]; inversion X; subst c tab; clear X.
    + exists v1. split; auto. intros i x Hx. destruct (MM i x Hx) as [P Q]. rewrite H4, H3, H2, G1 by discriminate. split; intros E; [now rewrite (P E)|now rewrite (Q E)].
    + exists v2. split; auto. intros i x Hx. destruct (MM i x Hx) as [P Q]. rewrite H4, H3, G2 by discriminate. rewrite H1 by discriminate. split; intros E; [now rewrite (P E)|now rewrite (Q E)].
    + exists v3. split; auto. intros i x Hx. destruct (MM i x Hx) as [P Q]. rewrite H4, G3 by discriminate. rewrite H2, H1 by discriminate. split; intros E; [now rewrite (P E)|now rewrite (Q E)].
    + exists v4. split; auto. intros i x Hx. destruct (MM i x Hx) as [P Q]. rewrite G4. rewrite H3, H2, H1 by discriminate. split; intros E; [now rewrite (P E)|now rewrite (Q E)].
Qed.
Lemma band_fold : forall ch bp bs f f', frame_ok f -> length bp = nrows f -> (forall c, In c four -> In c (columns f)) -> fold_res (band_step ch bp) f bs = Ok f' ->
  kept_frame four f f' /\
  forall c tab, In (c, tab) (four_tables ch) -> forall i x, nth_error bp i = Some x ->
    (forall b, x = CStr b -> In b bs -> exists v, first_row String.eqb b tab = Ok v /\ cell_f f' c i = Some (CNum v)) /\
    ((forall b, In b bs -> x <> CStr b) -> cell_f f' c i = cell_f f c i).
Proof.
  intros ch bp. induction bs as [|b0 bs IH]; intros f f' F L C H.
  - injection H as <-. split; [now apply kept_refl|]. intros c tab _ i x _. split; [intros b _ []|auto].
  - cbn [fold_res] in H. destruct (band_step ch bp f b0) as [f1|] eqn:E1; [|discriminate].
    destruct (band_step_spec _ _ _ _ _ F L C E1) as [K1 S1].
    assert (L1 : length bp = nrows f1) by (unfold nrows; rewrite (kf_labels _ _ _ K1); exact L).
    destruct (IH f1 f' (kf_ok _ _ _ K1) L1) as [K2 S2]; auto.
    { intros c Hc. rewrite (kf_cols _ _ _ K1). auto. }
    split; [now apply (kept_trans _ _ f1)|]. intros c tab HT i x Hx. destruct (S1 c tab HT) as (v & Hv & S1'). destruct (S1' i x Hx) as [P1 P2]. destruct (S2 c tab HT i x Hx) as [Q1 Q2].
    split.
    + intros b -> Hb. destruct (in_dec string_dec b bs) as [I|I]; [now apply Q1|]. destruct Hb as [->|Hb]; [|contradiction]. exists v. split; auto.
      rewrite Q2; [now apply P1|]. intros b' Hb' E. inversion E; subst. contradiction.
    + intros HN. rewrite Q2, P2; auto; [apply HN; simpl; auto|]. intros b Hb. apply HN. simpl. auto.
Qed.
Lemma band_fold_ok : forall ch bp bs f, (forall b, In b bs -> forall c tab, In (c, tab) (four_tables ch) -> In b (map fst tab)) -> exists f', fold_res (band_step ch bp) f bs = Ok f'.
Proof.
  intros ch bp. induction bs as [|b bs IH]; intros f H; cbn [fold_res]; eauto. unfold band_step at 1. cbv zeta.
  assert (X : forall tab, In tab (map snd (four_tables ch)) -> exists v, first_row String.eqb b tab = Ok v).
  { intros tab HT. apply first_row_missing; [apply String.eqb_eq|]. apply in_map_iff in HT. destruct HT as ([c t] & <- & HT). exact (H b (or_introl eq_refl) c t HT). }
  destruct (X (rc_zp ch) ltac:(simpl; tauto)) as (v1 & ->). destruct (X (rc_psf ch) ltac:(simpl; tauto)) as (v2 & ->). destruct (X (rc_zodi ch) ltac:(simpl; tauto)) as (v3 & ->).
  destruct (X (rc_thermal ch) ltac:(simpl; tauto)) as (v4 & ->). cbn [bind]. apply IH. intros b' Hb'. apply H. simpl. auto.
Qed.
Lemma band_fold_err : forall ch bp bs f e, fold_res (band_step ch bp) f bs = Err e -> e = IndexError /\ exists b c tab, In b bs /\ In (c, tab) (four_tables ch) /\ ~ In b (map fst tab).
Proof.
  intros ch bp. induction bs as [|b bs IH]; intros f e H; cbn [fold_res] in H; [discriminate|]. destruct (band_step ch bp f b) as [f1|e1] eqn:E1.
  - destruct (IH _ _ H) as (A & b' & c & tab & B & D). split; auto. exists b', c, tab. simpl. tauto.
  - injection H as <-. unfold band_step in E1. cbv zeta in E1.
    assert (M : forall tab e', first_row String.eqb b tab = Err e' -> e' = IndexError /\ ~ In b (map fst tab)).
    { intros tab e' HE. split; [now apply first_row_err in HE|]. intros I. apply (first_row_missing _ String.eqb) in I; [|apply String.eqb_eq]. destruct I as (v & HV). congruence. }
    repeat match type of E1 with bind ?X _ = _ => let E := fresh "E" in destruct X as [?|?] eqn:E; cbn [bind] in E1; [|injection E1 as <-; destruct (M _ _ E) as [-> NI]; split; auto; exists b; eexists; eexists; split; [simpl; auto|split; [|exact NI]]; simpl; eauto 6] end.
    discriminate.
Qed.
(** The numbers of a column. *)
Fixpoint ascending (l : list R) : Prop := match l with [] => True | x :: l' => Forall (fun y => x < y) l' /\ ascending l' end.
Lemma insert_In : forall x l y, In y (insert_num x l) <-> y = x \/ In y l.
Proof.
  induction l as [|z l IH]; intros y; simpl; [intuition|]. destruct (Reqb x z) eqn:E; [apply Reqb_true in E; subst; simpl; intuition|].
  destruct (Rltb x z); simpl; [intuition|]. rewrite IH. intuition.
Qed.
Lemma insert_ascending : forall x l, ascending l -> ascending (insert_num x l).
Proof.
  induction l as [|z l IH]; intros H; simpl; [split; auto|]. destruct H as [H1 H2]. destruct (Reqb x z) eqn:E; [split; auto|]. apply Reqb_false in E.
  destruct (Rltb x z) eqn:E2.
  - apply Rltb_true in E2. split; [constructor; auto; eapply Forall_impl; [|exact H1]; intros; lra|split; auto].
  - apply Rltb_false in E2. split; [|now apply IH]. rewrite Forall_forall in *. intros y Hy. apply insert_In in Hy. destruct Hy as [->|Hy]; [lra|auto].
Qed.
Lemma numbers_spec : forall c l, numbers c = Ok l -> ascending l /\ exists rs, c = map CNum rs /\ forall r, In r l <-> In r rs.
Proof.
  intros c l H. unfold numbers in H. destruct (seq_res _) as [rs|] eqn:E; [|discriminate]. cbn [bind] in H. injection H as <-.
  assert (EC : c = map CNum rs).
  { revert rs E. induction c as [|x c IH]; intros rs E; cbn [map seq_res] in E; [injection E as <-; auto|]. destruct x as [r|s|]; cbn [bind] in E; try discriminate.
    destruct (seq_res _) as [rs'|]; [|discriminate]. cbn [bind] in E. injection E as <-. simpl. f_equal. now apply IH. }
  clear E. split.
  - induction rs as [|r rs IH] in c, EC |- *; simpl; auto. apply insert_ascending. eapply IH. reflexivity.
  - exists rs. split; auto. clear. induction rs as [|x rs IH]; intros r; simpl; [tauto|]. rewrite insert_In, IH. intuition.
Qed.
Lemma numbers_ok : forall rs, exists l, numbers (map CNum rs) = Ok l.
Proof.
  intros rs. unfold numbers. rewrite map_map. rewrite (seq_res_map _ _ _ (fun r => r) rs); [cbn [bind]; eauto|]. auto.
Qed.
Lemma ascending_nodup : forall l, ascending l -> NoDup l.
Proof. induction l as [|x l IH]; intros H; constructor; [|apply IH, H]. destruct H as [H _]. rewrite Forall_forall in H. intros I. specialize (H x I). lra. Qed.
Lemma ascending_rank : forall l k p, ascending l -> nth_error l k = Some p -> length (filter (fun q => Rltb q p) l) = k.
Proof.
  induction l as [|x l IH]; intros k p H E; [destruct k; discriminate|]. destruct H as [H1 H2]. rewrite Forall_forall in H1. destruct k as [|k]; simpl in E.
  - injection E as ->. simpl. replace (Rltb p p) with false by (symmetry; apply Rltb_false; lra).
    assert (Z : filter (fun q => Rltb q p) l = []); [|now rewrite Z].
    assert (A : forall q, In q l -> Rltb q p = false) by (intros q Hq; apply Rltb_false; specialize (H1 q Hq); lra). clear -A.
    induction l as [|y l IH]; simpl; auto. rewrite (A y (or_introl eq_refl)). apply IH. intros; apply A; simpl; auto.
  - pose proof (H1 p (nth_error_In _ _ E)). simpl. replace (Rltb x p) with true by (symmetry; apply Rltb_true; lra). simpl. f_equal. now apply IH.
Qed.
Lemma rank_nth : forall rs l k p, ascending l -> (forall r, In r l <-> In r rs) -> nth_error l k = Some p -> rank p rs = k.
Proof.
  intros rs l k p A S E. rewrite <- (ascending_rank l k p A E). unfold rank.
  assert (P : incl (nodup Req_EM_T (filter (fun q => Rltb q p) rs)) (filter (fun q => Rltb q p) l) /\ incl (filter (fun q => Rltb q p) l) (nodup Req_EM_T (filter (fun q => Rltb q p) rs))).
  { split; intros q Hq; [apply nodup_In in Hq|apply nodup_In]; apply filter_In in Hq; apply filter_In; destruct Hq as [H1 H2]; split; auto; now apply S. }
  apply Nat.le_antisymm; apply NoDup_incl_length; try apply P; [apply NoDup_nodup|apply NoDup_filter, ascending_nodup, A].
Qed.
Lemma ma_fold : forall ch rs ns f f', frame_ok f -> length rs = nrows f -> In "exptime"%string (columns f) -> fold_res (ma_step ch (map CNum rs)) f ns = Ok f' ->
  kept_frame ["exptime"%string] f f' /\
  forall i r, nth_error rs i = Some r ->
    (In r ns -> exists v, first_row Reqb r (rc_ma ch) = Ok v /\ cell_f f' "exptime" i = Some (CNum v)) /\ (~ In r ns -> cell_f f' "exptime" i = cell_f f "exptime" i).
Proof.
  intros ch rs. induction ns as [|n ns IH]; intros f f' F L C H.
  - injection H as <-. split; [now apply kept_refl|]. intros i r _. split; [intros []|auto].
  - cbn [fold_res] in H. unfold ma_step at 1 in H. destruct (first_row Reqb n (rc_ma ch)) as [v|] eqn:E1; [|discriminate]. cbn [bind] in H.
    set (m := map (num_is n) (map CNum rs)) in *. assert (LM : length m = nrows f) by (unfold m; now rewrite !map_length).
    destruct (set_col_spec "exptime"%string m v f F LM C) as (A1 & B1 & D1 & G1 & H1). set (f1 := set_col "exptime" m v f) in *.
    destruct (IH f1 f' A1) as [K2 S2]; auto; [now rewrite D1|].
    split.
    + apply (kept_trans _ _ f1); auto. apply set_col_kept; auto. simpl. auto.
    + intros i r Hr. destruct (S2 i r Hr) as [Q1 Q2].
      assert (MM : nth_error m i = Some (num_is n (CNum r))) by (unfold m; rewrite map_map, nth_error_map, Hr; reflexivity).
      split.
      * intros HI. destruct (in_dec Req_EM_T r ns) as [I|I]; [now apply Q1|]. destruct HI as [->|HI]; [|contradiction]. exists v. split; auto.
        rewrite Q2 by auto. rewrite G1, MM. now rewrite (proj2 (num_is_spec r (CNum r)) eq_refl).
      * intros HN. rewrite Q2 by (intros I; apply HN; simpl; auto). rewrite G1, MM. destruct (num_is n (CNum r)) eqn:E; auto. apply num_is_spec in E. injection E as ->. exfalso. apply HN. simpl. auto.
Qed.
Lemma ma_fold_ok : forall ch ma ns f, (forall n, In n ns -> In n (map fst (rc_ma ch))) -> exists f', fold_res (ma_step ch ma) f ns = Ok f'.
Proof.
  intros ch ma. induction ns as [|n ns IH]; intros f H; cbn [fold_res]; eauto. unfold ma_step at 1.
  destruct (proj2 (first_row_missing _ Reqb n (rc_ma ch) Reqb_iff) (H n (or_introl eq_refl))) as (v & ->). cbn [bind]. apply IH. intros; apply H; simpl; auto.
Qed.
Lemma ma_fold_err : forall ch ma ns f e, fold_res (ma_step ch ma) f ns = Err e -> e = IndexError /\ exists n, In n ns /\ ~ In n (map fst (rc_ma ch)).
Proof.
  intros ch ma. induction ns as [|n ns IH]; intros f e H; cbn [fold_res] in H; [discriminate|]. unfold ma_step at 1 in H. destruct (first_row Reqb n (rc_ma ch)) as [v|e1] eqn:E; cbn [bind] in H.
  - destruct (IH _ _ H) as (A & n' & B & D). split; auto. exists n'. simpl. auto.
  - injection H as <-. split; [now apply first_row_err in E|]. exists n. split; [simpl; auto|]. intros I. apply (first_row_missing _ Reqb _ _ Reqb_iff) in I. destruct I. congruence.
Qed.
Lemma pass_fold : forall rs ns s f f', NoDup ns -> frame_ok f -> length rs = nrows f -> In "time"%string (columns f) ->
  fold_res (pass_step (map CNum rs)) f (combine (seq s (length ns)) ns) = Ok f' ->
  kept_frame ["time"%string] f f' /\
  forall i r, nth_error rs i = Some r ->
    (forall k, nth_error ns k = Some r -> cell_f f' "time" i = Some (CNum (61304 + 5 * INR (s + k)))) /\ (~ In r ns -> cell_f f' "time" i = cell_f f "time" i).
Proof.
  intros rs. induction ns as [|n ns IH]; intros s f f' ND F L C H.
  - injection H as <-. split; [now apply kept_refl|]. intros i r _. split; [intros k E; destruct k; discriminate|auto].
  - inversion ND as [|? ? NI ND']; subst. cbn [length seq combine fold_res] in H. unfold pass_step at 1 in H. cbn [fst snd] in H.
    set (m := map (num_is n) (map CNum rs)) in *. assert (LM : length m = nrows f) by (unfold m; now rewrite !map_length).
    destruct (set_col_spec "time"%string m (61304 + 5 * INR s) f F LM C) as (A1 & B1 & D1 & G1 & H1). set (f1 := set_col "time" m _ f) in *.
    destruct (IH (S s) f1 f' ND' A1) as [K2 S2]; auto; [now rewrite D1|].
    split.
    + apply (kept_trans _ _ f1); auto. apply set_col_kept; auto. simpl. auto.
    + intros i r Hr. destruct (S2 i r Hr) as [Q1 Q2].
      assert (MM : nth_error m i = Some (num_is n (CNum r))) by (unfold m; rewrite map_map, nth_error_map, Hr; reflexivity).
      split.
      * intros [|k] Hk; simpl in Hk.
        -- injection Hk as ->. rewrite Q2 by auto. rewrite G1, MM. rewrite (proj2 (num_is_spec r (CNum r)) eq_refl). now rewrite Nat.add_0_r.
        -- rewrite (Q1 k Hk). now replace (S s + k)%nat with (s + S k)%nat by lia.
      * intros HN. rewrite Q2 by (intros I; apply HN; simpl; auto). rewrite G1, MM. destruct (num_is n (CNum r)) eqn:E; auto. apply num_is_spec in E. injection E as ->. exfalso. apply HN. simpl. auto.
Qed.
Lemma pass_fold_ok : forall ps l f, exists f', fold_res (pass_step ps) f l = Ok f'.
Proof. intros ps. induction l as [|x l IH]; intros f; cbn [fold_res]; eauto. unfold pass_step at 1. apply IH. Qed.
Lemma texts_spec : forall c l, texts c = Ok l -> exists ss, c = map CStr ss /\ forall s, In s l <-> In s ss.
Proof.
  intros c l H. unfold texts in H. destruct (seq_res _) as [ss|] eqn:E; [|discriminate]. cbn [bind] in H. injection H as <-. exists ss. split.
  - revert ss E. induction c as [|x c IH]; intros ss E; cbn [map seq_res] in E; [injection E as <-; auto|]. destruct x as [r|s|]; cbn [bind] in E; try discriminate.
    destruct (seq_res _) as [ss'|]; [|discriminate]. cbn [bind] in E. injection E as <-. simpl. f_equal. now apply IH.
  - intros s. rewrite In_fold_sadd. simpl. tauto.
Qed.
Lemma texts_ok : forall ss, exists l, texts (map CStr ss) = Ok l.
Proof. intros ss. unfold texts. rewrite map_map. rewrite (seq_res_map _ _ _ (fun s => s) ss); [cbn [bind]; eauto|]. auto. Qed.
Definition six : list string := ["zp_abmag"; "N_Eff_Pix"; "zodi_countrate_min"; "thermal_countrate"; "time"; "exptime"]%string.
Lemma zero_cols : forall names f, frame_ok f -> let f' := fold_left (fun f name => whole_col name (zeros f) f) names f in
  frame_ok f' /\ f_labels f' = f_labels f /\ (forall x, In x (columns f') <-> In x names \/ In x (columns f)) /\ (forall c i, ~ In c names -> cell_f f' c i = cell_f f c i).
Proof.
  induction names as [|n names IH]; intros f F; cbv zeta; cbn [fold_left].
  - repeat split; auto; try apply F. intros [[]|]; auto.
  - destruct (whole_col_spec n (zeros f) f F) as (A & B & D & _ & G); [unfold zeros; now rewrite map_length|].
    destruct (IH _ A) as (A2 & B2 & D2 & G2). split; auto. split; [congruence|]. split.
    + intros x. rewrite D2, D. simpl. intuition.
    + intros c i HN. simpl in HN. rewrite G2, G; auto; intros ->; tauto.
Qed.
Lemma cell_col : forall f name c, dget name (f_cols f) = Some c -> forall i, cell_f f name i = nth_error c i.
Proof. intros f name c H i. unfold cell_f. now rewrite H. Qed.
Lemma col_ext : forall f f' name c c', frame_ok f -> frame_ok f' -> f_labels f' = f_labels f -> dget name (f_cols f) = Some c -> dget name (f_cols f') = Some c' ->
  (forall i, cell_f f' name i = cell_f f name i) -> c' = c.
Proof.
  intros f f' name c c' [_ F] [_ F'] L E E' H. rewrite Forall_forall in *. pose proof (F _ (dget_In _ _ _ _ E)) as LC. pose proof (F' _ (dget_In _ _ _ _ E')) as LC'. cbn [snd] in *.
  assert (X : forall i, nth_error c' i = nth_error c i) by (intros i; rewrite <- (cell_col _ _ _ E), <- (cell_col _ _ _ E'); apply H).
  apply nth_error_same. exact X.
Qed.
Definition added : list string := "zp_nJy"%string :: six.
Record appended (ch : rchar) (f f' : frame) (bands : list string) (mas passes : list R) : Prop := {
  ap_ok : frame_ok f'; ap_labels : f_labels f' = f_labels f;
  ap_cols : forall x, In x (columns f') <-> In x added \/ In x (columns f);
  ap_cells : forall c i, ~ In c added -> cell_f f' c i = cell_f f c i;
  ap_bands : dget "BANDPASS" (f_cols f) = Some (map CStr bands);
  ap_mas : dget "MA_TABLE_NUMBER" (f_cols f) = Some (map CNum mas);
  ap_passes : dget "PASS" (f_cols f) = Some (map CNum passes);
  ap_four : forall c tab i b, In (c, tab) (four_tables ch) -> nth_error bands i = Some b -> exists v, listed tab b v /\ cell_f f' c i = Some (CNum v);
  ap_zp : forall i b v, nth_error bands i = Some b -> listed (rc_zp ch) b v -> cell_f f' "zp_nJy" i = Some (CNum (mag2flux v));
  ap_exptime : forall i n, nth_error mas i = Some n -> exists v, listed (rc_ma ch) n v /\ cell_f f' "exptime" i = Some (CNum v);
  ap_time : forall i p, nth_error passes i = Some p -> cell_f f' "time" i = Some (CNum (61304 + 5 * INR (rank p passes)))
}.
Lemma listed_unique : forall K (eqb : K -> K -> bool), (forall a b, eqb a b = true <-> a = b) -> forall (t : list (K * R)) k v w, listed t k v -> listed t k w -> v = w.
Proof. intros K eqb HE t k v w H1 H2. apply (first_row_listed _ eqb _ _ _ HE) in H1, H2. congruence. Qed.
Lemma append_spec : forall ch f f', frame_ok f -> roman_append ch f = Ok f' -> exists bands mas passes, appended ch f f' bands mas passes.
Proof.
  intros ch f f' F H. unfold roman_append in H. cbv zeta in H. fold six in H. set (f0 := fold_left _ six f) in H.
  destruct (zero_cols six f F) as (A0 & B0 & D0 & G0). fold f0 in A0, B0, D0, G0.
  destruct (attr_col "BANDPASS" f0) as [bp|] eqn:EB; [|discriminate]. cbn [bind] in H. destruct (texts bp) as [bs|] eqn:ET; [|discriminate]. cbn [bind] in H.
  destruct (fold_res (band_step ch bp) f0 bs) as [f1|] eqn:E1; [|discriminate]. cbn [bind] in H.
  destruct (attr_col "MA_TABLE_NUMBER" f1) as [ma|] eqn:EM; [|discriminate]. cbn [bind] in H. destruct (numbers ma) as [ns|] eqn:EN; [|discriminate]. cbn [bind] in H.
  destruct (fold_res (ma_step ch ma) f1 ns) as [f2|] eqn:E2; [|discriminate]. cbn [bind] in H.
  destruct (attr_col "PASS" f2) as [ps|] eqn:EP; [|discriminate]. cbn [bind] in H. destruct (numbers ps) as [ks|] eqn:EK; [|discriminate]. cbn [bind] in H.
  destruct (fold_res (pass_step ps) f2 _) as [f3|] eqn:E3; [|discriminate]. cbn [bind] in H. injection H as <-.
  assert (CL : forall g name c, frame_ok g -> attr_col name g = Ok c -> dget name (f_cols g) = Some c /\ length c = nrows g).
  { intros g name c [_ FF] HC. unfold attr_col in HC. destruct (dget name (f_cols g)) as [c'|] eqn:E; [|discriminate]. injection HC as ->. split; auto.
    rewrite Forall_forall in FF. exact (FF _ (dget_In _ _ _ _ E)). }
  destruct (CL _ _ _ A0 EB) as [DB LB]. destruct (texts_spec _ _ ET) as (bands & -> & SB).
  destruct (band_fold ch _ bs f0 f1 A0 LB) as [K1 S1]; auto. { intros c Hc. apply D0. left. unfold four, six in *. simpl in *. tauto. }
  destruct (CL _ _ _ (kf_ok _ _ _ K1) EM) as [DM LM]. destruct (numbers_spec _ _ EN) as (AN & mas & -> & SN). rewrite map_length in LM.
  destruct (ma_fold ch mas ns f1 f2 (kf_ok _ _ _ K1) LM) as [K2 S2]; auto. { rewrite (kf_cols _ _ _ K1). apply D0. left. simpl. tauto. }
  destruct (CL _ _ _ (kf_ok _ _ _ K2) EP) as [DP LP]. destruct (numbers_spec _ _ EK) as (AK & passes & -> & SK). rewrite map_length in LP.
  destruct (pass_fold passes ks 0 f2 f3 (ascending_nodup _ AK) (kf_ok _ _ _ K2) LP) as [K3 S3]; auto. { rewrite (kf_cols _ _ _ K2), (kf_cols _ _ _ K1). apply D0. left. simpl. tauto. }
  assert (IZ : In "zp_abmag"%string (columns f3)). { rewrite (kf_cols _ _ _ K3), (kf_cols _ _ _ K2), (kf_cols _ _ _ K1). apply D0. left. simpl. tauto. }
  apply dget_keys in IZ. destruct (dget "zp_abmag" (f_cols f3)) as [zc|] eqn:EZ; [|congruence].
  assert (LZ : length zc = nrows f3). { destruct (kf_ok _ _ _ K3) as [_ FF]. rewrite Forall_forall in FF. exact (FF _ (dget_In _ _ _ _ EZ)). }
  set (g := map (fun c => match c with CNum m => CNum (mag2flux m) | c => c end) zc).
  destruct (whole_col_spec "zp_nJy" g f3 (kf_ok _ _ _ K3)) as (A4 & B4 & D4 & G4 & H4); [unfold g; now rewrite map_length|].
  assert (OLD : forall name c, ~ In name six -> name <> "zp_nJy"%string -> forall g2, frame_ok g2 -> f_labels g2 = f_labels f -> (forall x, In x (columns g2) <-> In x six \/ In x (columns f)) ->
            (forall i, cell_f g2 name i = cell_f f name i) -> dget name (f_cols g2) = Some c -> dget name (f_cols f) = Some c).
  { intros name c N1 N2 g2 OK2 LB2 CO2 CE2 DG2. assert (I : In name (columns f)).
    { assert (I2 : In name (columns g2)) by (apply dget_keys; congruence). apply CO2 in I2. tauto. }
    apply dget_keys in I. destruct (dget name (f_cols f)) as [c'|] eqn:E; [|congruence]. f_equal. symmetry. exact (col_ext f g2 name c' c F OK2 LB2 E DG2 CE2). }
  assert (L1 : f_labels f1 = f_labels f) by (rewrite (kf_labels _ _ _ K1); exact B0).
  assert (L2 : f_labels f2 = f_labels f) by (rewrite (kf_labels _ _ _ K2); exact L1).
  assert (L3 : f_labels f3 = f_labels f) by (rewrite (kf_labels _ _ _ K3); exact L2).
  assert (C1 : forall x, In x (columns f1) <-> In x six \/ In x (columns f)) by (intros x; rewrite (kf_cols _ _ _ K1); apply D0).
  assert (C2 : forall x, In x (columns f2) <-> In x six \/ In x (columns f)) by (intros x; rewrite (kf_cols _ _ _ K2); apply C1).
  assert (C3 : forall x, In x (columns f3) <-> In x six \/ In x (columns f)) by (intros x; rewrite (kf_cols _ _ _ K3); apply C2).
  assert (X1 : forall c i, ~ In c six -> cell_f f1 c i = cell_f f c i).
  { intros c i N. rewrite (kf_cells _ _ _ K1); [now apply G0|]. unfold four, six in *. simpl in *. tauto. }
  assert (X2 : forall c i, ~ In c six -> cell_f f2 c i = cell_f f c i).
  { intros c i N. rewrite (kf_cells _ _ _ K2); [now apply X1|]. unfold six in *. simpl in *. tauto. }
  assert (X3 : forall c i, ~ In c six -> cell_f f3 c i = cell_f f c i).
  { intros c i N. rewrite (kf_cells _ _ _ K3); [now apply X2|]. unfold six in *. simpl in *. tauto. }
  assert (NS : forall c, In c ["BANDPASS"; "MA_TABLE_NUMBER"; "PASS"]%string -> ~ In c six) by (intros c [<-|[<-|[<-|[]]]]; simpl; intuition discriminate).
  assert (FOUR : forall c tab i b, In (c, tab) (four_tables ch) -> nth_error bands i = Some b -> exists v, listed tab b v /\ cell_f f3 c i = Some (CNum v)).
  { intros c tab i b HT Hb. destruct (S1 c tab HT i (CStr b)) as [P _]; [rewrite nth_error_map, Hb; reflexivity|].
    destruct (P b eq_refl) as (v & Hv & CE); [apply SB; eapply nth_error_In; eauto|]. exists v. split; [now apply (first_row_listed _ String.eqb _ _ _ String.eqb_eq)|].
    assert (NE : c <> "exptime"%string /\ c <> "time"%string) by (destruct HT as [E|[E|[E|[E|[]]]]]; inversion E; subst; split; discriminate).
    rewrite (kf_cells _ _ _ K3), (kf_cells _ _ _ K2); auto; simpl; intuition. }
  exists bands, mas, passes. split; auto.
  - intros x. rewrite D4, C3. unfold added. simpl. intuition.
  - intros c i HN. unfold added in HN. simpl in HN. rewrite H4 by (intros ->; tauto). apply X3. simpl. tauto.
  - apply (OLD "BANDPASS"%string _ (NS "BANDPASS"%string ltac:(simpl; tauto)) ltac:(discriminate) f0); auto. intros i. apply G0. apply NS. simpl. tauto.
  - apply (OLD "MA_TABLE_NUMBER"%string _ (NS "MA_TABLE_NUMBER"%string ltac:(simpl; tauto)) ltac:(discriminate) f1 (kf_ok _ _ _ K1)); auto. intros i. apply X1. apply NS. simpl. tauto.
  - apply (OLD "PASS"%string _ (NS "PASS"%string ltac:(simpl; tauto)) ltac:(discriminate) f2 (kf_ok _ _ _ K2)); auto. intros i. apply X2. apply NS. simpl. tauto.
  - intros c tab i b HT Hb. rewrite H4; [now apply FOUR|]. destruct HT as [E|[E|[E|[E|[]]]]]; inversion E; discriminate.
  - intros i b v Hb HL. rewrite G4. unfold g. rewrite nth_error_map, <- (cell_col _ _ _ EZ). destruct (FOUR "zp_abmag"%string (rc_zp ch) i b ltac:(simpl; tauto) Hb) as (v' & HL' & ->).
    rewrite (listed_unique _ String.eqb String.eqb_eq _ _ _ _ HL HL'). reflexivity.
  - intros i n Hn. destruct (S2 i n Hn) as [P _]. destruct P as (v & Hv & CE); [apply SN; eapply nth_error_In; eauto|]. exists v. split; [now apply (first_row_listed _ Reqb _ _ _ Reqb_iff)|].
    rewrite H4 by discriminate. rewrite (kf_cells _ _ _ K3); [exact CE|]. simpl. intuition discriminate.
  - intros i p Hp. rewrite H4 by discriminate. destruct (S3 i p Hp) as [P _]. assert (I : In p ks) by (apply SK; eapply nth_error_In; eauto). apply In_nth_error in I. destruct I as (k & Hk).
    rewrite (P k Hk). now rewrite (rank_nth passes ks k p AK SK Hk).
Qed.
(** ** The table *)
Lemma roman_base : forall ch f meta kw fp f' o, roman_make ch (RFrame f) None None meta kw fp = Ok (f', o) ->
  roman_append ch f = Ok f' /\ exists o0, ob_make f' (Some roman_colnames) meta [] fp = Ok o0 /\ ob_frame o = ob_frame o0 /\ ob_values o = survey_values roman_defaults meta kw /\
    ob_tree o = build_tree (ob_frame o0) /\ ob_footprint o = fp /\ ob_filters o = ob_filters o0.
Proof.
  intros ch f meta kw fp f' o H. unfold roman_make in H. destruct (roman_append ch f) as [g|] eqn:E; [|discriminate]. cbn [bind] in H.
  destruct (survey_make _ _ g _ _ _ _) as [o'|] eqn:ES; [|discriminate]. cbn [bind] in H. injection H as <- <-. split; auto.
  destruct (survey_base _ _ _ _ _ _ _ _ ES) as (o0 & E0 & M). cbv zeta in M. destruct M as (o1 & M & ->). exists o0. split; auto.
  assert (O1 : o1 = mkObs (ob_frame o0) (ob_inv o0) (survey_values roman_defaults meta kw) (ob_filters o0) [] (ob_footprint o0)) by (destruct (ob_contains o0 "zp"); [auto|now injection M]).
  subst o1. cbn [ob_frame ob_values ob_tree ob_footprint ob_filters]. repeat (split; auto).
  unfold ob_make in E0. destruct (remap _ _) as [[f2 inv]|]; [|discriminate]. cbn [bind] in E0. destruct (forallb _ required); [|discriminate]. now injection E0 as <-.
Qed.
Lemma roman_nodup : NoDup (dkeys roman_colnames) /\ NoDup (map snd roman_colnames).
Proof. split; repeat constructor; simpl; intuition discriminate. Qed.
Lemma cell_renamed : forall f meta fp o k v i x, frame_ok f -> ob_make f (Some roman_colnames) meta [] fp = Ok o -> In (k, v) roman_colnames -> cell_f f v i = Some x -> cell_at o k i = Some x.
Proof.
  intros f meta fp o k v i x F E HI HC. unfold cell_f in HC. destruct (dget v (f_cols f)) as [c|] eqn:EC; [|discriminate].
  destruct (C37_renamed _ _ _ _ _ _ k v c F (proj1 roman_nodup) (proj2 roman_nodup) E HI EC) as (G & _ & I & _). unfold ob_getitem in G. unfold cell_at. apply dget_keys in I.
  destruct (dget k (f_cols (ob_frame o))) as [c'|]; [|congruence]. now injection G as ->.
Qed.
Lemma cell_unmapped : forall f meta fp o v i x, frame_ok f -> ob_make f (Some roman_colnames) meta [] fp = Ok o -> ~ In v (map snd roman_colnames) -> cell_f f v i = Some x -> cell_at o v i = Some x.
Proof.
  intros f meta fp o v i x F E HI HC. unfold cell_f in HC. destruct (dget v (f_cols f)) as [c|] eqn:EC; [|discriminate].
  assert (T : In v (columns (ob_frame o))).
  { pose proof (make_remap _ _ _ _ _ _ E) as H. unfold remap in H. destruct (fold_res _ _ roman_colnames) as [[nm inv]|] eqn:EF; [|discriminate]. cbn [bind fst snd] in H. injection H as EFr EI.
    destruct (remap_fold_eq _ _ _ _ _ EF) as [B _]. destruct (B v HI) as [B1 _]. cbn [fst] in B1. rewrite <- EFr. unfold columns. cbn [f_cols]. rewrite rename_keys. apply in_map_iff.
    exists v. split; [rewrite B1; apply target_id|]. apply dget_keys. congruence. }
  pose proof (C37_unmapped _ _ _ _ _ _ v c F (proj1 roman_nodup) E HI EC) as G. unfold ob_getitem in G. unfold cell_at. apply dget_keys in T.
  destruct (dget v (f_cols (ob_frame o))) as [c'|]; [|congruence]. now injection G as ->.
Qed.
(** Every row of a Roman table: band, pointing and the rest of the plan are kept; zero point, effective pixels, zodiacal and
    thermal rates are the first entries of the band in the characterisation tables, the exposure time that of the
    accumulation table, and the time counts the passes, five days apart. *)
Theorem C74_rows : forall ch f meta kw fp f' o, frame_ok f -> roman_make ch (RFrame f) None None meta kw fp = Ok (f', o) ->
  nrows (ob_frame o) = nrows f /\
  (forall c i x, In c (columns f) -> ~ In c ["RA"; "DEC"; "BANDPASS"]%string -> ~ In c added -> cell_f f c i = Some x -> cell_at o c i = Some x) /\
  forall i ra dec b n p, cell_f f "RA" i = Some ra -> cell_f f "DEC" i = Some dec -> cell_f f "BANDPASS" i = Some b ->
    cell_f f "MA_TABLE_NUMBER" i = Some n -> cell_f f "PASS" i = Some p ->
    cell_at o "ra" i = Some ra /\ cell_at o "dec" i = Some dec /\ cell_at o "filter" i = Some b /\
    exists band ma pass passes zp np nz nt t, b = CStr band /\ n = CNum ma /\ p = CNum pass /\ dget "PASS" (f_cols f) = Some (map CNum passes) /\
      listed (rc_zp ch) band zp /\ listed (rc_psf ch) band np /\ listed (rc_zodi ch) band nz /\ listed (rc_thermal ch) band nt /\ listed (rc_ma ch) ma t /\
      cell_at o "zp" i = Some (CNum (mag2flux zp)) /\ cell_at o "N_Eff_Pix" i = Some (CNum np) /\ cell_at o "zodi_countrate_min" i = Some (CNum nz) /\
      cell_at o "thermal_countrate" i = Some (CNum nt) /\ cell_at o "exptime" i = Some (CNum t) /\
      cell_at o "time" i = Some (CNum (61304 + 5 * INR (rank pass passes))).
Proof.
  intros ch f meta kw fp f' o F H. destruct (roman_base _ _ _ _ _ _ _ H) as (EA & o0 & E0 & EF & _). destruct (append_spec _ _ _ F EA) as (bands & mas & passes & AP).
  pose proof (ap_ok _ _ _ _ _ _ AP) as F'.
  assert (CA : forall c i, cell_at o c i = cell_at o0 c i) by (intros; unfold cell_at; now rewrite EF).
  assert (NR : nrows (ob_frame o) = nrows f).
  { destruct (C37_no_column_lost _ _ _ _ _ _ F' (some_nodup _ _ (proj1 roman_nodup)) E0) as (_ & _ & L). unfold nrows. rewrite EF, L. now rewrite (ap_labels _ _ _ _ _ _ AP). }
  split; auto. split.
  - intros c i x HC N1 N2 HX. rewrite CA. apply (cell_unmapped f' meta fp o0 c i x F' E0).
    + simpl. intros [<-|[<-|[<-|[<-|[<-|[]]]]]]; simpl in N1; unfold added, six in N2; simpl in N2; tauto.
    + now rewrite (ap_cells _ _ _ _ _ _ AP).
  - intros i ra dec b n p Hra Hdec Hb Hn Hp.
    assert (NA : forall c, In c ["RA"; "DEC"; "BANDPASS"; "MA_TABLE_NUMBER"; "PASS"]%string -> ~ In c added).
    { intros c [<-|[<-|[<-|[<-|[<-|[]]]]]]; simpl; intuition discriminate. }
    assert (OLD : forall c x, In c ["RA"; "DEC"; "BANDPASS"; "MA_TABLE_NUMBER"; "PASS"]%string -> cell_f f c i = Some x -> cell_f f' c i = Some x).
    { intros c x Hc Hx. now rewrite (ap_cells _ _ _ _ _ _ AP) by auto. }
    rewrite !CA. split; [apply (cell_renamed f' meta fp o0 "ra" "RA"); auto; [simpl; tauto|apply OLD; auto; simpl; tauto]|].
    split; [apply (cell_renamed f' meta fp o0 "dec" "DEC"); auto; [simpl; tauto|apply OLD; auto; simpl; tauto]|].
    split; [apply (cell_renamed f' meta fp o0 "filter" "BANDPASS"); auto; [simpl; tauto|apply OLD; auto; simpl; tauto]|].
    unfold cell_f in Hb, Hn, Hp. rewrite (ap_bands _ _ _ _ _ _ AP), nth_error_map in Hb. rewrite (ap_mas _ _ _ _ _ _ AP), nth_error_map in Hn. rewrite (ap_passes _ _ _ _ _ _ AP), nth_error_map in Hp.
    destruct (nth_error bands i) as [band|] eqn:Eb; [|discriminate]. destruct (nth_error mas i) as [ma|] eqn:En; [|discriminate]. destruct (nth_error passes i) as [pass|] eqn:Ep; [|discriminate].
    injection Hb as <-. injection Hn as <-. injection Hp as <-.
    destruct (ap_four _ _ _ _ _ _ AP "zp_abmag"%string (rc_zp ch) i band ltac:(simpl; tauto) Eb) as (zp & L1 & _).
    destruct (ap_four _ _ _ _ _ _ AP "N_Eff_Pix"%string (rc_psf ch) i band ltac:(simpl; tauto) Eb) as (np & L2 & C2).
    destruct (ap_four _ _ _ _ _ _ AP "zodi_countrate_min"%string (rc_zodi ch) i band ltac:(simpl; tauto) Eb) as (nz & L3 & C3).
    destruct (ap_four _ _ _ _ _ _ AP "thermal_countrate"%string (rc_thermal ch) i band ltac:(simpl; tauto) Eb) as (nt & L4 & C4).
    destruct (ap_exptime _ _ _ _ _ _ AP i ma En) as (t & L5 & C5).
    exists band, ma, pass, passes, zp, np, nz, nt, t. do 3 (split; [reflexivity|]). split; [apply (ap_passes _ _ _ _ _ _ AP)|]. do 5 (split; [assumption|]).
    split; [apply (cell_renamed f' meta fp o0 "zp" "zp_nJy"); auto; [simpl; tauto|]; now apply (ap_zp _ _ _ _ _ _ AP i band zp)|].
    split; [apply (cell_unmapped f' meta fp o0); auto; simpl; intuition discriminate|]. split; [apply (cell_unmapped f' meta fp o0); auto; simpl; intuition discriminate|].
    split; [apply (cell_unmapped f' meta fp o0); auto; simpl; intuition discriminate|]. split; [apply (cell_unmapped f' meta fp o0); auto; simpl; intuition discriminate|].
    apply (cell_renamed f' meta fp o0 "time" "time"); auto; [simpl; tauto|]. now apply (ap_time _ _ _ _ _ _ AP).
Qed.
(** The times order the passes. *)
Theorem C74_passes : forall l p q, In p l -> In q l ->
  (p = q <-> 61304 + 5 * INR (rank p l) = 61304 + 5 * INR (rank q l)) /\ (p < q -> 61304 + 5 * INR (rank p l) + 5 <= 61304 + 5 * INR (rank q l)) /\
  ((forall r, In r l -> p <= r) -> 61304 + 5 * INR (rank p l) = 61304) /\
  ((forall r, In r l -> r <= p \/ q <= r) -> p < q -> 61304 + 5 * INR (rank q l) = 61304 + 5 * INR (rank p l) + 5).
Proof.
  assert (LT : forall l p q, In p l -> p < q -> (rank p l < rank q l)%nat).
  { intros l p q HP HL. unfold rank. apply (NoDup_incl_length (l := p :: nodup Req_EM_T (filter (fun x => Rltb x p) l))).
    - constructor; [|apply NoDup_nodup]. intros I. apply nodup_In, filter_In in I. destruct I as [_ I]. apply Rltb_true in I. lra.
    - intros x [<-|I]; apply nodup_In, filter_In; [split; auto; now apply Rltb_true|]. apply nodup_In, filter_In in I. destruct I as [I1 I2]. split; auto. apply Rltb_true in I2. apply Rltb_true. lra. }
  assert (IL : forall a b, (a < b)%nat -> 5 * INR a + 5 <= 5 * INR b).
  { intros a b H. assert (INR (S a) <= INR b) by now apply le_INR. rewrite S_INR in H0. lra. }
  intros l p q HP HQ. split; [|split; [|split]].
  - split; [now intros ->|]. intros E. destruct (Rtotal_order p q) as [L|[L|L]]; auto; exfalso; [pose proof (IL _ _ (LT l p q HP L))|pose proof (IL _ _ (LT l q p HQ L))]; lra.
  - intros L. pose proof (IL _ _ (LT l p q HP L)). lra.
  - intros HM. assert (Z : rank p l = 0%nat); [|rewrite Z; simpl; lra]. unfold rank.
    assert (E : filter (fun x => Rltb x p) l = []); [|now rewrite E]. assert (A : forall x, In x l -> Rltb x p = false) by (intros x Hx; apply Rltb_false; specialize (HM x Hx); lra). clear -A.
    induction l as [|y l IH]; simpl; auto. rewrite (A y (or_introl eq_refl)). apply IH. intros; apply A; simpl; auto.
  - intros HB HL. assert (Z : rank q l = S (rank p l)); [|rewrite Z, S_INR; lra].
    apply Nat.le_antisymm; [|now apply LT]. unfold rank. apply (NoDup_incl_length (l' := p :: nodup Req_EM_T (filter (fun x => Rltb x p) l))); [apply NoDup_nodup|].
    intros x I. apply nodup_In, filter_In in I. destruct I as [I1 I2]. apply Rltb_true in I2. destruct (Req_EM_T x p) as [->|N]; [simpl; auto|]. right. apply nodup_In, filter_In. split; auto.
    apply Rltb_true. destruct (HB x I1); lra.
Qed.
(** Error bars of a Roman table. *)
Theorem C74_errors : forall o flux index lvl dk, (forall i, In i index -> (i < nrows (ob_frame o))%nat) -> length flux = length index ->
  (forall c, In c ["exptime"; "zodi_countrate_min"; "thermal_countrate"; "N_Eff_Pix"; "zp"]%string -> In c (columns (ob_frame o))) ->
  dget "zodi_level" (ob_values o) = Some (SNum lvl) -> dget "dark_current" (ob_values o) = Some (SNum dk) ->
  exists out, roman_errors o flux index = Ok out /\ length out = length index /\
  forall j x i t nz nt np z, nth_error flux j = Some x -> nth_error index j = Some i ->
    cell_at o "exptime" i = Some (CNum t) -> cell_at o "zodi_countrate_min" i = Some (CNum nz) -> cell_at o "thermal_countrate" i = Some (CNum nt) ->
    cell_at o "N_Eff_Pix" i = Some (CNum np) -> cell_at o "zp" i = Some (CNum z) -> 304 / 100 <= t ->
    nth_error out j = Some (poisson_std x t 1 np (t * (lvl * nz + nt)) (z / t) (RFun roman_read) dk).
Proof.
  intros o flux index lvl dk HI HL HC VL VD. unfold roman_errors.
  replace (in_rows o index) with true by (symmetry; apply forallb_forall; intros i Hi; apply Nat.ltb_lt; auto). cbn [negb].
  assert (N : forall names, (forall c, In c names -> In c (columns (ob_frame o))) -> need_cols o names = Ok tt).
  { induction names as [|c names IH]; intros HN; cbn [need_cols]; auto. unfold need_col. pose proof (HN c (or_introl eq_refl)) as Hc. apply dget_keys in Hc.
    destruct (dget c (f_cols (ob_frame o))); [|congruence]. cbn [bind]. apply IH. intros; apply HN; right; auto. }
  rewrite !N by (intros c Hc; apply HC; simpl in *; tauto). cbn [bind]. rewrite (proj2 (safe_number_ok _ _ _) VL), (proj2 (safe_number_ok _ _ _) VD). cbn [bind].
  rewrite HL, Nat.eqb_refl. cbn [negb]. eexists. split; [reflexivity|]. split; [rewrite map_length, combine_length; lia|].
  intros j x i t nz nt np z Hx Hi H1 H2 H3 H4 H5 HT. rewrite nth_error_map, nth_error_combine, Hx, Hi. cbn [option_map].
  rewrite !num_at_row, H1, H2, H3, H4, H5. cbn [num_opt roman_row].
  assert (N1 : 1 <= t / (304 / 100)) by (apply Rmult_le_reg_r with (304 / 100); [lra|]; unfold Rdiv at 2; rewrite Rmult_assoc, Rinv_l by lra; lra).
  replace (Reqb t 0) with false by (symmetry; apply Reqb_false; lra). replace (Reqb (t / (304 / 100) + 1) 0) with false by (symmetry; apply Reqb_false; lra).
  assert (RS : 0 <= read_square t).
  { unfold read_square. cbv zeta. set (n := t / (304 / 100)) in *. assert (0 <= (n - 1) / n / (n + 1)); [|lra]. unfold Rdiv.
    apply Rmult_le_pos; [apply Rmult_le_pos; [lra|]|]; apply Rlt_le, Rinv_0_lt_compat; lra. }
  replace (Rltb (read_square t) 0) with false by (symmetry; apply Rltb_false; lra). reflexivity.
Qed.
(** From plan to error bars. *)
Theorem C74_noise : forall ch f meta kw fp f' o flux index lvl dk, frame_ok f -> NoDup (dkeys meta) -> NoDup (dkeys kw) ->
  roman_make ch (RFrame f) None None meta kw fp = Ok (f', o) ->
  value_given roman_defaults meta kw "zodi_level" = Some (SNum lvl) -> value_given roman_defaults meta kw "dark_current" = Some (SNum dk) ->
  (forall i, In i index -> (i < nrows f)%nat) -> length flux = length index ->
  exists out, roman_errors o flux index = Ok out /\ length out = length index /\
  forall j x i band ma zp np nz nt t, nth_error flux j = Some x -> nth_error index j = Some i ->
    cell_f f "RA" i <> None -> cell_f f "DEC" i <> None -> cell_f f "PASS" i <> None -> cell_f f "BANDPASS" i = Some (CStr band) -> cell_f f "MA_TABLE_NUMBER" i = Some (CNum ma) ->
    listed (rc_zp ch) band zp -> listed (rc_psf ch) band np -> listed (rc_zodi ch) band nz -> listed (rc_thermal ch) band nt -> listed (rc_ma ch) ma t -> 304 / 100 <= t ->
    nth_error out j = Some (poisson_std x t 1 np (t * (lvl * nz + nt)) (mag2flux zp / t) (RFun roman_read) dk).
Proof.
  intros ch f meta kw fp f' o flux index lvl dk F NM NK H VL VD HI HL.
  destruct (C74_rows _ _ _ _ _ _ _ F H) as (NR & _ & RW). destruct (roman_base _ _ _ _ _ _ _ H) as (EA & o0 & E0 & EF & EV & _). destruct (append_spec _ _ _ F EA) as (bands & mas & passes & AP).
  pose proof (ap_ok _ _ _ _ _ _ AP) as F'.
  assert (CI : forall c, In c ["exptime"; "zodi_countrate_min"; "thermal_countrate"; "N_Eff_Pix"; "zp"]%string -> In c (columns (ob_frame o))).
  { assert (M : forall c, In c added -> exists col, dget c (f_cols f') = Some col).
    { intros c Hc. assert (I : In c (columns f')) by (apply (ap_cols _ _ _ _ _ _ AP); auto). apply dget_keys in I. destruct (dget c (f_cols f')); [eauto|congruence]. }
    rewrite EF. pose proof (make_remap _ _ _ _ _ _ E0) as HR. unfold remap in HR. destruct (fold_res _ _ roman_colnames) as [[nm inv]|] eqn:EFo; [|discriminate]. cbn [bind fst snd] in HR. injection HR as EFr EI.
    assert (U : forall c, In c added -> ~ In c (map snd roman_colnames) -> In c (columns (ob_frame o0))).
    { intros c Hc HN. destruct (remap_fold_eq _ _ _ _ _ EFo) as [B _]. destruct (B c HN) as [B1 _]. cbn [fst] in B1. rewrite <- EFr. unfold columns. cbn [f_cols]. rewrite rename_keys. apply in_map_iff.
      exists c. split; [rewrite B1; apply target_id|]. apply (ap_cols _ _ _ _ _ _ AP). auto. }
    intros c [<-|[<-|[<-|[<-|[<-|[]]]]]]; try (apply U; simpl; intuition discriminate).
    destruct (M "zp_nJy"%string ltac:(simpl; tauto)) as (zc & EZ). apply (C37_renamed _ _ _ _ _ _ "zp" "zp_nJy" zc F' (proj1 roman_nodup) (proj2 roman_nodup) E0 ltac:(simpl; tauto) EZ). }
  destruct (C74_errors o flux index lvl dk) as (out & EO & LO & HO); auto.
  - intros i Hi. rewrite NR. auto.
  - rewrite EV, survey_value_get; auto.
  - rewrite EV, survey_value_get; auto.
  - exists out. split; auto. split; auto. intros j x i band ma zp np nz nt t Hx Hi Hra Hdec Hp Hb Hm L1 L2 L3 L4 L5 HT.
    destruct (cell_f f "RA" i) as [ra|] eqn:Era; [|congruence]. destruct (cell_f f "DEC" i) as [dec|] eqn:Edec; [|congruence]. destruct (cell_f f "PASS" i) as [p|] eqn:Ep; [|congruence].
    destruct (RW i ra dec (CStr band) (CNum ma) p Era Edec Hb Hm Ep) as (_ & _ & _ & band' & ma' & pass & ps & zp' & np' & nz' & nt' & t' & B1 & B2 & _ & _ & M1 & M2 & M3 & M4 & M5 & C1 & C2 & C3 & C4 & C5 & _).
    injection B1 as <-. injection B2 as <-.
    rewrite <- (listed_unique _ String.eqb String.eqb_eq _ _ _ _ L1 M1) in C1. rewrite <- (listed_unique _ String.eqb String.eqb_eq _ _ _ _ L2 M2) in C2.
    rewrite <- (listed_unique _ String.eqb String.eqb_eq _ _ _ _ L3 M3) in C3. rewrite <- (listed_unique _ String.eqb String.eqb_eq _ _ _ _ L4 M4) in C4.
    rewrite <- (listed_unique _ Reqb Reqb_iff _ _ _ _ L5 M5) in C5. now apply HO with (i := i).
Qed.
(** Everything the plan refers to is in the tables. *)
Definition characterised (ch : rchar) (bands : list string) (mas : list R) : Prop :=
  (forall b, In b bands -> In b (map fst (rc_zp ch)) /\ In b (map fst (rc_psf ch)) /\ In b (map fst (rc_zodi ch)) /\ In b (map fst (rc_thermal ch))) /\
  (forall n, In n mas -> In n (map fst (rc_ma ch))).
Lemma append_cases : forall ch f bands mas passes, frame_ok f -> dget "BANDPASS" (f_cols f) = Some (map CStr bands) -> dget "MA_TABLE_NUMBER" (f_cols f) = Some (map CNum mas) ->
  dget "PASS" (f_cols f) = Some (map CNum passes) ->
  (characterised ch bands mas -> exists f', roman_append ch f = Ok f') /\ (~ characterised ch bands mas -> roman_append ch f = Err IndexError).
Proof.
  intros ch f bands mas passes F HB HM HP.
  destruct (roman_append ch f) as [f'|e] eqn:EA.
  - split; [eauto|]. intros NC. exfalso. apply NC. destruct (append_spec _ _ _ F EA) as (bs & ms & ps & AP). rewrite (ap_bands _ _ _ _ _ _ AP) in HB. rewrite (ap_mas _ _ _ _ _ _ AP) in HM.
    assert (IS : forall a b, map CStr a = map CStr b -> a = b).
    { induction a as [|x a IH]; intros [|y b] E; try discriminate; auto. simpl in E. injection E as -> E. f_equal. auto. }
    assert (IN : forall a b, map CNum a = map CNum b -> a = b).
    { induction a as [|x a IH]; intros [|y b] E; try discriminate; auto. simpl in E. injection E as -> E. f_equal. auto. }
    injection HB as HB. injection HM as HM. apply IS in HB. apply IN in HM. subst bs ms.
    assert (LI : forall K (t : list (K * R)) k v, listed t k v -> In k (map fst t)).
    { intros K t k v (a & b & -> & _). rewrite map_app. apply in_or_app. simpl. auto. }
    split.
    + intros b Hb. apply In_nth_error in Hb. destruct Hb as (i & Hi).
      assert (X : forall c tab, In (c, tab) (four_tables ch) -> In b (map fst tab)) by (intros c tab Ht; destruct (ap_four _ _ _ _ _ _ AP c tab i b Ht Hi) as (v & HV & _); eauto).
      split; [|split; [|split]]; [apply (X "zp_abmag"%string)|apply (X "N_Eff_Pix"%string)|apply (X "zodi_countrate_min"%string)|apply (X "thermal_countrate"%string)]; simpl; tauto.
    + intros n Hn. apply In_nth_error in Hn. destruct Hn as (i & Hi). destruct (ap_exptime _ _ _ _ _ _ AP i n Hi) as (v & HV & _). eauto.
  - unfold roman_append in EA. cbv zeta in EA. fold six in EA. set (f0 := fold_left _ six f) in EA. destruct (zero_cols six f F) as (A0 & B0 & D0 & G0). fold f0 in A0, B0, D0, G0.
    assert (ND : forall name, dget name (f_cols f0) = None -> In name (columns f) -> False).
    { intros name E I. apply dget_None in E. apply E. apply (proj2 (D0 name)). auto. }
    assert (OLD : forall g name c, frame_ok g -> f_labels g = f_labels f -> dget name (f_cols f) = Some c -> In name (columns g) -> (forall i, cell_f g name i = cell_f f name i) -> attr_col name g = Ok c).
    { intros g name c FG LG E I C. unfold attr_col. apply dget_keys in I. destruct (dget name (f_cols g)) as [c'|] eqn:E'; [|congruence]. f_equal. now apply (col_ext f g name c c'). }
    assert (IC : forall name c, dget name (f_cols f) = Some c -> In name (columns f)) by (intros name c E; apply dget_keys; congruence).
    rewrite (OLD f0 "BANDPASS"%string (map CStr bands)) in EA; auto;
      [|apply D0; right; eapply IC; exact HB|intros i; apply G0; simpl; intuition discriminate].
    cbn [bind] in EA. destruct (texts_ok bands) as (bs & ET). rewrite ET in EA. cbn [bind] in EA. destruct (texts_spec _ _ ET) as (ss & ES & SB).
    assert (ss = bands). { clear -ES. revert ss ES. induction bands as [|b bands IH]; intros [|s ss] E; try discriminate; auto. simpl in E. injection E as -> E. f_equal. auto. } subst ss. clear ES.
    destruct (fold_res (band_step ch _) f0 bs) as [f1|e1] eqn:E1; cbn [bind] in EA.
    2: { injection EA as <-. destruct (band_fold_err _ _ _ _ _ E1) as (-> & b & c & tab & I1 & I2 & I3). split; [|auto]. intros [C _]. exfalso. apply I3. apply SB in I1. destruct (C b I1) as (C1 & C2 & C3 & C4).
         destruct I2 as [X|[X|[X|[X|[]]]]]; inversion X; subst; auto. }
    assert (LBB : length (map CStr bands) = nrows f0). { destruct F as [_ FF]. rewrite Forall_forall in FF. pose proof (FF _ (dget_In _ _ _ _ HB)) as L. cbn [snd] in L. rewrite L. unfold nrows. now rewrite B0. }
    assert (FIN : forall c, In c four -> In c (columns f0)) by (intros c Hc; apply D0; left; unfold four, six in *; simpl in *; tauto).
    destruct (band_fold ch _ bs f0 f1 A0 LBB FIN E1) as [K1 _].
    assert (K1C : forall name c, dget name (f_cols f) = Some c -> ~ In name six -> In name (columns f1) /\ forall i, cell_f f1 name i = cell_f f name i).
    { intros name c E N. split; [rewrite (kf_cols _ _ _ K1); apply D0; right; eauto|]. intros i. rewrite (kf_cells _ _ _ K1); [now apply G0|]. intros I. apply N. unfold four, six in *. simpl in *. tauto. }
    assert (L1 : f_labels f1 = f_labels f) by (rewrite (kf_labels _ _ _ K1); exact B0).
    destruct (K1C _ _ HM ltac:(simpl; intuition discriminate)) as [M1 M2]. rewrite (OLD f1 _ _ (kf_ok _ _ _ K1) L1 HM M1 M2) in EA. cbn [bind] in EA.
    destruct (numbers_ok mas) as (ns & EN). rewrite EN in EA. cbn [bind] in EA. destruct (numbers_spec _ _ EN) as (AN & ms & EMs & SN).
    assert (ms = mas). { clear -EMs. revert ms EMs. induction mas as [|b mas IH]; intros [|s ss] E; try discriminate; auto. simpl in E. injection E as -> E. f_equal. auto. } subst ms. clear EMs.
    destruct (fold_res (ma_step ch _) f1 ns) as [f2|e2] eqn:E2; cbn [bind] in EA.
    2: { injection EA as <-. destruct (ma_fold_err _ _ _ _ _ E2) as (-> & n & I1 & I2). split; [|auto]. intros [_ C]. exfalso. apply I2, C, SN, I1. }
    exfalso. destruct (ma_fold ch mas ns f1 f2 (kf_ok _ _ _ K1)) as [K2 _]; auto.
    { destruct F as [_ FF]. rewrite Forall_forall in FF. pose proof (FF _ (dget_In _ _ _ _ HM)) as L. cbn [snd] in L. rewrite map_length in L. rewrite L. unfold nrows. now rewrite L1. }
    { rewrite (kf_cols _ _ _ K1). apply D0. left. simpl. tauto. }
    assert (L2 : f_labels f2 = f_labels f) by (rewrite (kf_labels _ _ _ K2); exact L1).
    destruct (K1C _ _ HP ltac:(simpl; intuition discriminate)) as [P1 P2].
    rewrite (OLD f2 _ _ (kf_ok _ _ _ K2) L2 HP) in EA; [|now rewrite (kf_cols _ _ _ K2)|intros i; rewrite (kf_cells _ _ _ K2); [apply P2|simpl; intuition discriminate]].
    cbn [bind] in EA. destruct (numbers_ok passes) as (ks & EK). rewrite EK in EA. cbn [bind] in EA.
    match type of EA with bind (fold_res ?a ?b ?c) _ = _ => destruct (pass_fold_ok (map CNum passes) c b) as (f3 & E3) end. rewrite E3 in EA. discriminate.
Qed.
(** A plan whose bands and tables are all known makes a table; a plan with an unknown band or MA table number is refused. *)
Theorem C74_accepts : forall ch f bands mas passes meta kw fp, frame_ok f -> dget "BANDPASS" (f_cols f) = Some (map CStr bands) -> dget "MA_TABLE_NUMBER" (f_cols f) = Some (map CNum mas) ->
  dget "PASS" (f_cols f) = Some (map CNum passes) -> (forall c, In c ["RA"; "DEC"]%string -> In c (columns f)) -> (forall c, In c ["ra"; "dec"; "filter"; "zp"]%string -> ~ In c (columns f)) ->
  (characterised ch bands mas -> exists f' o, roman_make ch (RFrame f) None None meta kw fp = Ok (f', o)) /\
  (~ characterised ch bands mas -> roman_make ch (RFrame f) None None meta kw fp = Err IndexError).
Proof.
  intros ch f bands mas passes meta kw fp F HB HM HP HC HN. destruct (append_cases ch f bands mas passes F HB HM HP) as [P Q]. split.
  - intros C. destruct (P C) as (f' & EA). unfold roman_make. rewrite EA. cbn [bind]. destruct (append_spec _ _ _ F EA) as (bs & ms & ps & AP).
    pose proof (ap_cols _ _ _ _ _ _ AP) as AC.
    destruct (C37_accepts f' roman_colnames meta [] fp (ap_ok _ _ _ _ _ _ AP) (proj1 roman_nodup) (proj2 roman_nodup)) as (o0 & E0).
    + intros k v Hkv Iv Ik. apply AC in Ik. destruct Hkv as [X|[X|[X|[X|[X|[]]]]]]; inversion X; subst k v; auto; destruct Ik as [Ik|Ik];
        try (exfalso; revert Ik; apply HN; simpl; tauto); simpl in Ik; intuition discriminate.
    + intros c [<-|[<-|[<-|[]]]]; left.
      * exists "RA"%string. split; [simpl; tauto|]. apply AC. right. apply HC. simpl. tauto.
      * exists "DEC"%string. split; [simpl; tauto|]. apply AC. right. apply HC. simpl. tauto.
      * exists "time"%string. split; [simpl; tauto|]. apply AC. left. simpl. tauto.
    + unfold survey_make. unfold ob_make in E0. destruct (remap (Some roman_colnames) f') as [[f2 inv]|]; [|discriminate]. cbn [bind] in *. destruct (forallb _ required); [|discriminate]. cbn [negb].
      exists f'. destruct (ob_contains _ "zp"); cbn [bind]; eauto.
  - intros C. unfold roman_make. now rewrite (Q C).
Qed.
(** Searching a Roman table finds exactly the exposures of the plan near the position, in the passes of the time window. *)
Theorem C74_search : forall ball ch f meta kw fp f' o ra dec radius tmin tmax r res ras decs bands mas passes, ball_spec ball -> frame_ok f -> NoDup (dkeys meta) -> NoDup (dkeys kw) ->
  dget "RA" (f_cols f) = Some (map CNum ras) -> dget "DEC" (f_cols f) = Some (map CNum decs) -> dget "BANDPASS" (f_cols f) = Some bands -> dget "MA_TABLE_NUMBER" (f_cols f) = Some mas ->
  dget "PASS" (f_cols f) = Some (map CNum passes) ->
  roman_make ch (RFrame f) None None meta kw fp = Ok (f', o) ->
  match radius with Some x => x = r | None => value_given roman_defaults meta kw "radius" = Some (SNum r) end -> 0 <= r <= 180 ->
  range_search ball o (QScalar ra) (QScalar dec) radius tmin tmax = Ok res ->
  exists l, res = One l /\ NoDup l /\ forall i, In i l <->
    exists ra' dec' p, nth_error ras i = Some ra' /\ nth_error decs i = Some dec' /\ nth_error passes i = Some p /\ separation ra' dec' ra dec <= r /\
      (forall a, bound_of tmin 0 = Some a -> a <= 61304 + 5 * INR (rank p passes)) /\ (forall b, bound_of tmax 0 = Some b -> 61304 + 5 * INR (rank p passes) <= b) /\
      (forall g, fp = Some g -> g (ra, dec) (ra', dec') (num_at o "rotation" i) = true).
Proof.
  intros ball ch f meta kw fp f' o ra dec radius tmin tmax r res ras decs bands mas passes HB F NM NK DR DD DB DM DP H HR HL HS.
  destruct (roman_base _ _ _ _ _ _ _ H) as (EA & o0 & E0 & EF & EV & ET & EP & _). destruct (append_spec _ _ _ F EA) as (bs & ms & ps & AP).
  pose proof (make_inv_obs _ _ _ _ _ _ (ap_ok _ _ _ _ _ _ AP) (some_nodup _ _ (proj1 roman_nodup)) E0) as T0.
  assert (T : tinv o). { destruct T0 as [A B _]. split; rewrite ?EF; auto. }
  assert (ER : radius_of o radius = Some r).
  { unfold radius_of. destruct radius as [x|]; [now subst|]. rewrite EV, survey_value_get by auto. now rewrite HR. }
  destruct (exact_scalar_inv _ _ _ _ _ _ _ _ _ HB T ER HL HS) as (l & E & N & M). exists l. split; auto. split; auto. intros i. rewrite M. clear M E N.
  destruct (C74_rows _ _ _ _ _ _ _ F H) as (NR & _ & RW).
  assert (LC : forall name c, dget name (f_cols f) = Some c -> length c = nrows f). { intros name c E. destruct F as [_ FF]. rewrite Forall_forall in FF. exact (FF _ (dget_In _ _ _ _ E)). }
  pose proof (LC _ _ DR) as LR. pose proof (LC _ _ DD) as LD. pose proof (LC _ _ DB) as LB. pose proof (LC _ _ DM) as LM. pose proof (LC _ _ DP) as LP. rewrite map_length in LR, LD, LP.
  destruct (le_lt_dec (nrows f) i) as [GE|LT].
  - split.
    + intros (a & b & t & A & _). exfalso. pose proof (num_at_lt _ _ _ _ T A). lia.
    + intros (a & b & p & A & _). exfalso. assert ((i < length ras)%nat) by (apply nth_error_Some; congruence). lia.
  - destruct (nth_error ras i) as [ra'|] eqn:N1; [|apply nth_error_None in N1; lia]. destruct (nth_error decs i) as [dec'|] eqn:N2; [|apply nth_error_None in N2; lia].
    destruct (nth_error bands i) as [b|] eqn:N3; [|apply nth_error_None in N3; lia]. destruct (nth_error mas i) as [m|] eqn:N4; [|apply nth_error_None in N4; lia].
    destruct (nth_error passes i) as [p|] eqn:N5; [|apply nth_error_None in N5; lia].
    destruct (RW i (CNum ra') (CNum dec') b m (CNum p)) as (C1 & C2 & _ & band & ma & pass & ps' & zp & np & nz & nt & t & _ & _ & B3 & B4 & _ & _ & _ & _ & _ & _ & _ & _ & _ & _ & CT);
      try (unfold cell_f; rewrite ?DR, ?DD, ?DB, ?DM, ?DP; now rewrite ?nth_error_map, ?N1, ?N2, ?N3, ?N4, ?N5).
    injection B3 as <-. rewrite DP in B4. injection B4 as B4.
    assert (passes = ps'). { clear -B4. revert ps' B4. induction passes as [|x l IH]; intros [|y l'] E; try discriminate; auto. simpl in E. injection E as -> E. f_equal. auto. } subst ps'.
    unfold matches. unfold num_at at 1 2 3. rewrite C1, C2, CT. cbn [option_map num_of]. rewrite EP. split.
    + intros (a & b' & t' & A1 & A2 & A3 & A4). injection A1 as <-. injection A2 as <-. injection A3 as <-. exists ra', dec', p. tauto.
    + intros (a & b' & p' & A1 & A2 & A3 & A4). injection A1 as <-. injection A2 as <-. injection A3 as <-. exists ra', dec', (61304 + 5 * INR (rank p passes)). tauto.
Qed.
(** The documented alternatives that cannot work: a path to another MA table, and a dictionary. *)
Theorem C74_ma_path_refuted : forall ch t colmap path meta kw fp, roman_make ch t colmap (Some path) meta kw fp = Err NameError.
Proof. reflexivity. Qed.
Theorem C74_dict_refuted : forall ch d colmap meta kw fp, roman_make ch (RDict d) colmap None meta kw fp = Err AttributeError.
Proof. reflexivity. Qed.
(** A concrete plan: three exposures in two passes. *)
Definition plan : frame := mkFrame [0; 1; 2]%nat
  [("RA", [CNum 10; CNum 11; CNum 10]); ("DEC", [CNum 0; CNum 0; CNum 0]); ("BANDPASS", [CStr "F184"; CStr "F106"; CStr "F184"]); ("MA_TABLE_NUMBER", [CNum 4; CNum 4; CNum 5]);
   ("PASS", [CNum 7; CNum 3; CNum 7]); ("time", [CNum 1; CNum 2; CNum 3])]%string.
Definition chars : rchar := mkChar [("F106", 26); ("F184", 25)]%string [("F106", 7); ("F184", 9)]%string [("F184", 2 / 10); ("F106", 3 / 10)]%string [("F106", 1 / 10); ("F184", 2 / 10)]%string
  [(4, 100); (5, 300)].
Lemma plan_ok : frame_ok plan.
Proof. split; [|repeat constructor]. repeat constructor; simpl; intuition discriminate. Qed.
Example C74_case : exists f' o, roman_make chars (RFrame plan) None None [] [] None = Ok (f', o) /\
  cell_at o "ra" 2 = Some (CNum 10) /\ cell_at o "filter" 2 = Some (CStr "F184") /\ cell_at o "exptime" 2 = Some (CNum 300) /\ cell_at o "zp" 2 = Some (CNum (mag2flux 25)) /\
  cell_at o "time" 2 = Some (CNum 61309) /\ cell_at o "time" 1 = Some (CNum 61304).
Proof.
  destruct (proj1 (C74_accepts chars plan ["F184"; "F106"; "F184"]%string [4; 4; 5] [7; 3; 7] [] [] None plan_ok eq_refl eq_refl eq_refl
     ltac:(intros c [<-|[<-|[]]]; simpl; tauto) ltac:(intros c [<-|[<-|[<-|[<-|[]]]]]; simpl; intuition discriminate))) as (f' & o & H).
  { split; [intros b [<-|[<-|[<-|[]]]]|intros n [<-|[<-|[<-|[]]]]]; simpl; tauto. }
  exists f', o. split; auto. destruct (C74_rows _ _ _ _ _ _ _ plan_ok H) as (_ & _ & RW).
  assert (R2 : rank 7 [7; 3; 7] = 1%nat).
  { unfold rank. cbn [filter]. replace (Rltb 7 7) with false by (symmetry; apply Rltb_false; lra). replace (Rltb 3 7) with true by (symmetry; apply Rltb_true; lra). cbn [nodup]. destruct (in_dec Req_EM_T 3 []) as [[]|]. reflexivity. }
  assert (R1 : rank 3 [7; 3; 7] = 0%nat).
  { unfold rank. cbn [filter]. replace (Rltb 7 3) with false by (symmetry; apply Rltb_false; lra). replace (Rltb 3 3) with false by (symmetry; apply Rltb_false; lra). reflexivity. }
  assert (EP : forall ps, dget "PASS" (f_cols plan) = Some (map CNum ps) -> ps = [7; 3; 7]).
  { intros ps E. change (Some [CNum 7; CNum 3; CNum 7] = Some (map CNum ps)) in E. destruct ps as [|a [|b [|c [|]]]]; try discriminate. simpl in E. congruence. }
  assert (LZ : listed (rc_zp chars) "F184"%string 25). { exists [("F106"%string, 26)], []. split; auto. simpl. intuition discriminate. }
  assert (LM : listed (rc_ma chars) 5 300). { exists [(4, 100)], []. split; auto. simpl. intros [E|[]]. lra. }
  destruct (RW 2%nat (CNum 10) (CNum 0) (CStr "F184") (CNum 5) (CNum 7)) as (C1 & C2 & C3 & band & ma & pass & ps & zp & np & nz & nt & t & B1 & B2 & B3 & B4 & L1 & _ & _ & _ & L5 & CZ & _ & _ & _ & CX & CT); try reflexivity.
  injection B1 as <-. injection B2 as <-. injection B3 as <-. rewrite (EP _ B4), R2 in CT. simpl in CT.
  rewrite (listed_unique _ String.eqb String.eqb_eq _ _ _ _ L1 LZ) in CZ. rewrite (listed_unique _ Reqb Reqb_iff _ _ _ _ L5 LM) in CX.
  split; auto. split; auto. split; auto. split; auto. split; [rewrite CT; do 2 f_equal; lra|].
  destruct (RW 1%nat (CNum 11) (CNum 0) (CStr "F106") (CNum 4) (CNum 3)) as (_ & _ & _ & band & ma & pass & ps' & zp' & np' & nz' & nt' & t' & _ & _ & B3' & B4' & _ & _ & _ & _ & _ & _ & _ & _ & _ & _ & CT'); try reflexivity.
  injection B3' as <-. rewrite (EP _ B4'), R1 in CT'. simpl in CT'. rewrite CT'. do 2 f_equal. lra.
Qed.
(** The constructor writes into the caller's table: its own times are gone afterwards. *)
Theorem C74_caller_table_refuted : exists f f' o, frame_ok f /\ roman_make chars (RFrame f) None None [] [] None = Ok (f', o) /\
  cell_f f "time" 0 = Some (CNum 1) /\ cell_f f' "time" 0 <> Some (CNum 1) /\ cell_f f "zp_abmag" 0 = None /\ cell_f f' "zp_abmag" 0 <> None.
Proof.
  destruct C74_case as (f' & o & H & _). exists plan, f', o. split; [apply plan_ok|]. split; auto. destruct (roman_base _ _ _ _ _ _ _ H) as (EA & _). destruct (append_spec _ _ _ plan_ok EA) as (bs & ms & ps & AP).
  pose proof (ap_passes _ _ _ _ _ _ AP) as EP. change (Some [CNum 7; CNum 3; CNum 7] = Some (map CNum ps)) in EP. destruct ps as [|a [|b [|c [|]]]]; try discriminate.
  pose proof (ap_bands _ _ _ _ _ _ AP) as EB. change (Some [CStr "F184"; CStr "F106"; CStr "F184"] = Some (map CStr bs)) in EB. destruct bs as [|a' [|b' [|c' [|]]]]; try discriminate.
  split; [reflexivity|]. split; [|split; [reflexivity|]].
  - rewrite (ap_time _ _ _ _ _ _ AP 0%nat a eq_refl). intros E. injection E as E. pose proof (pos_INR (rank a [a; b; c])). lra.
  - destruct (ap_four _ _ _ _ _ _ AP "zp_abmag"%string (rc_zp chars) 0%nat a' ltac:(simpl; tauto) eq_refl) as (v & _ & ->). discriminate.
Qed.
