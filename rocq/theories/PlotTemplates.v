(** Property C117, continued: the picture of a light-curve template (PlotModel.plot_templates). *)
From Coq Require Import Reals String List Bool Arith Lia Lra ZArith.
From Verif Require Import Base BaseFacts RealBase SedModel SedBands TemplateModel TemplateProps TemplateBands PlotModel PlotProps.
Import ListNotations.
Open Scope list_scope.
Open Scope R_scope.

Definition filter_colour (f c : string) : Prop := match dget f lsst_colors with Some k => c = k | None => c = "black"%string end.
Lemma F2_keys : forall (X Y : Type) (P : X -> Y -> Prop) (d : dict X) (e : dict Y), Forall2 (fun a b => fst a = fst b /\ P (snd a) (snd b)) d e -> dkeys d = dkeys e.
Proof. intros X Y P d e H. induction H as [|a b d e [H1 _] H IH]; simpl; congruence. Qed.
Lemma made_keys : forall i t0 periodic mags baseline lc b', make_lc i t0 periodic mags baseline = Ok (lc, b') -> well_keyed i -> NoDup (dkeys (lc_curves lc)).
Proof.
  intros i t0 periodic mags baseline lc b' H HW. destruct (make_lc_inv _ _ _ _ _ _ _ H) as (d & cs & HP & HC & _ & HV & _).
  assert (N : NoDup (dkeys d)).
  { unfold lc_parse in HP. destruct i as [d0|c rows|]; [injection HP as ->; exact HW| |discriminate]. destruct (negb (c =? 3)%nat); [discriminate|]. injection HP as <-.
    unfold split_array, dkeys. rewrite map_map. cbn [fst]. rewrite map_id. apply NoDup_unique. }
  unfold dict_curves in HC. rewrite (F2_keys _ _ (fun a b => check_curve t0 mags a = Ok b) _ _ HC) in N. destruct periodic.
  - destruct HV as (p & HV & _). destruct (validate_periodicity_inv _ _ _ _ _ HV) as (f0 & c0 & rest & EC & _ & _ & _ & _ & [(_ & E2 & _)|(_ & _ & _ & E2)]); rewrite E2; auto.
    unfold dkeys. rewrite map_map. exact N.
  - destruct HV as (-> & _). exact N.
Qed.
Lemma plot_templates_artists : forall lc times ax,
  let x := plot_templates lc times ax in
  ax_artists x = ax_artists (given_axes ax) ++ map (fun fc => Curve (fst fc) (match dget (fst fc) lsst_colors with Some c => c | None => "black"%string end)
    (match times with None => snd fc | Some ts => combine ts (map (interp (snd fc) 0 0) ts) end)) (lc_curves lc) /\
  ax_title x = Some "Underlying Light Curves"%string /\ ax_legend x = true /\ ax_xlabel x = "Time (days)"%string /\ ax_ylabel x = "Filter value (nJy)"%string.
Proof.
  intros lc times ax. unfold plot_templates. fold (given_axes ax).
  rewrite (fold_put _ (fun fc => [Curve (fst fc) (match dget (fst fc) lsst_colors with Some c => c | None => "black"%string end)
    (match times with None => snd fc | Some ts => combine ts (map (interp (snd fc) 0 0) ts) end)])).
  2: { intros y [f c]. destruct times; reflexivity. }
  cbv zeta. unfold with_legend, with_title, with_labels, put_artists. cbn [ax_artists ax_title ax_legend ax_xlabel ax_ylabel]. split; [f_equal|auto].
Qed.
Lemma shifted_increasing : forall k l, increasing l -> increasing (map (fun a => a + k) l).
Proof.
  intros k. induction l as [|a [|b l] IH]; intros H; [exact I|exact I|]. destruct H as [H1 H2]. split; [lra|]. exact (IH H2).
Qed.
(** Without times: for each filter, in order, the data the caller gave (times relative to the reference time, magnitudes as fluxes). *)
Theorem C117_template_data : forall i t0 periodic mags baseline lc b' ax, make_lc i t0 periodic mags baseline = Ok (lc, b') -> well_keyed i ->
  exists arts, ax_artists (plot_templates lc None ax) = ax_artists (given_axes ax) ++ arts /\
  Forall2 (fun f a => exists c col, data_of i f = Some c /\ filter_colour f col /\ a = Curve f col (map (fun p => (fst p - lc_t0 lc, as_flux mags (snd p))) c)) (lc_filters lc) arts /\
  (forall f, In f (lc_filters lc) <-> data_of i f <> None) /\ NoDup (lc_filters lc).
Proof.
  intros i t0 periodic mags baseline lc b' ax H HW. destruct (plot_templates_artists lc None ax) as (E & _). rewrite E. eexists. split; [reflexivity|].
  pose proof (made_keys _ _ _ _ _ _ _ H HW) as ND. pose proof (make_lc_stored _ _ _ _ _ _ _ H) as ST.
  split; [|split; [|exact ND]].
  - unfold lc_filters, dkeys in *. assert (IN : forall fc, In fc (lc_curves lc) -> dget (fst fc) (lc_curves lc) = Some (snd fc)) by (intros [f c] HI; now apply In_dget).
    clear ND E. revert IN. generalize (lc_curves lc) at 1 3 4. intros l. induction l as [|[f c] l IH]; intros IN; cbn [map]; constructor.
    + specialize (IN (f, c) (or_introl eq_refl)). cbn [fst snd] in *. destruct (ST f) as [S _]. rewrite IN in S. destruct (data_of i f) as [d|] eqn:ED; [|discriminate]. simpl in S. injection S as ->.
      exists d, (match dget f lsst_colors with Some c => c | None => "black"%string end). split; [reflexivity|]. split; [|reflexivity]. unfold filter_colour. destruct (dget f lsst_colors); reflexivity.
    + apply IH. intros fc HI. apply IN. now right.
  - intros f. destruct (ST f) as [S _]. unfold lc_filters. split.
    + intros HI HN. rewrite HN in S. simpl in S. apply dget_None in S. auto.
    + intros HN. destruct (data_of i f) as [c|]; [|congruence]. simpl in S. apply dget_In in S. apply (in_map fst) in S. exact S.
Qed.
(** With times, and a curve that is not periodic: the value drawn at a time inside the filter's data is the one the model evaluates to. *)
Theorem C117_template_times : forall i t0 mags baseline lc b' ts ax, make_lc i t0 false mags baseline = Ok (lc, b') -> well_keyed i ->
  exists arts, ax_artists (plot_templates lc (Some ts) ax) = ax_artists (given_axes ax) ++ arts /\
  Forall2 (fun f a => exists c col vs, data_of i f = Some c /\ filter_colour f col /\ a = Curve f col (combine ts vs) /\ length vs = length ts /\
    forall k t v, nth_error ts k = Some t -> nth_error vs k = Some v ->
      (first_x c <= t + t0 <= last_x c -> flux_at lc f t v) /\ (t + t0 < first_x c \/ last_x c < t + t0 -> v = 0)) (lc_filters lc) arts.
Proof.
  intros i t0 mags baseline lc b' ts ax H HW. destruct (plot_templates_artists lc (Some ts) ax) as (E & _). rewrite E. eexists. split; [reflexivity|].
  pose proof (made_keys _ _ _ _ _ _ _ H HW) as ND. pose proof (make_lc_stored _ _ _ _ _ _ _ H) as ST. destruct (make_lc_inv _ _ _ _ _ _ _ H) as (_ & _ & _ & _ & _ & (_ & T0 & NP) & _).
  unfold lc_filters, dkeys in *. assert (IN : forall fc, In fc (lc_curves lc) -> dget (fst fc) (lc_curves lc) = Some (snd fc)) by (intros [f c] HI; now apply In_dget).
  clear ND E. revert IN. generalize (lc_curves lc) at 1 3 4. intros l. induction l as [|[f c] l IH]; intros IN; cbn [map]; constructor.
  - specialize (IN (f, c) (or_introl eq_refl)). cbn [fst snd] in *. destruct (ST f) as [S REST]. pose proof IN as GC. rewrite IN in S. destruct (data_of i f) as [d|] eqn:ED; [|discriminate].
    simpl in S. injection S as ->. destruct (REST d eq_refl) as (NE & INC & MN & MX).
    exists d, (match dget f lsst_colors with Some c => c | None => "black"%string end). eexists. split; [reflexivity|]. split; [unfold filter_colour; destruct (dget f lsst_colors); reflexivity|]. split; [reflexivity|]. split; [apply map_length|].
    intros k t v HK HV. rewrite nth_error_map, HK in HV. simpl in HV. injection HV as <-. rewrite T0 in *. split; intros HR.
    + unfold flux_at. rewrite (lc_evaluate_map lc [t] f _ _ _ GC MN MX). cbn [map]. unfold lc_value, wrapped. rewrite NP.
      replace (_ && _)%bool with true by (symmetry; rewrite andb_true_iff, !Rleb_true; split; lra). reflexivity.
    + assert (SH : xs (map (fun p => (fst p - t0, as_flux mags (snd p))) d) = map (fun a => a + - t0) (xs d)).
      { unfold xs. rewrite !map_map. apply map_ext. intros [a b]. reflexivity. }
      assert (NE2 : map (fun p => (fst p - t0, as_flux mags (snd p))) d <> []) by (destruct d; [congruence|discriminate]).
      destruct HR as [HR|HR].
      * apply interp_left; auto. change (fst (hd (0, 0) (map (fun p => (fst p - t0, as_flux mags (snd p))) d))) with (first_x (map (fun p => (fst p - t0, as_flux mags (snd p))) d)).
        rewrite first_x_map by auto. unfold first_x in HR. simpl. lra.
      * apply interp_right; auto.
        -- rewrite SH. now apply shifted_increasing.
        -- unfold last_x. rewrite (last_map_gen _ _ _ d (0, 0)) by auto. unfold last_x in HR. simpl. lra.
  - apply IH. intros fc HI. apply IN. now right.
Qed.
(** "To help the user understand the SEDs produced by this model": outside the data 0 is drawn, while the model has the baseline; *)
Theorem C117_template_baseline_refuted : exists i lc b', make_lc i 1 false false (Some [("g"%string, 5)]) = Ok (lc, b') /\
  ax_artists (plot_templates lc (Some [10]) None) = [Curve "g" "blue" [(10, 0)]] /\ flux_at lc "g" 10 5.
Proof.
  destruct C48_example as (lc & b' & E & V). exists (LDict [("g"%string, mkTab 2 ex_curve)]), lc, b'. split; [exact E|]. split.
  - destruct (C117_template_times _ _ _ _ _ _ [10] None E) as (arts & EA & FA).
    { simpl. repeat constructor. intros []. }
    rewrite EA. cbn [given_axes new_axes ax_artists app]. destruct (make_lc_inv _ _ _ _ _ _ _ E) as (d & cs & HP & HC & _ & (ECS & _ & _) & _). injection HP as <-.
    unfold dict_curves in HC. assert (LF : lc_filters lc = ["g"%string]).
    { unfold lc_filters. rewrite ECS. rewrite <- (F2_keys _ _ (fun a b => check_curve 1 false a = Ok b) _ _ HC). reflexivity. }
    rewrite LF in FA. inversion FA as [|f a l l' (c & col & vs & DC & FC & -> & LV & HV) F2 X1 X2]; subst. inversion F2; subst. simpl in DC. injection DC as <-.
    destruct vs as [|v [|w vs]]; try discriminate. unfold filter_colour in FC. simpl in FC. subst col. destruct (HV 0%nat 10 v eq_refl eq_refl) as [_ HO]. rewrite HO; [reflexivity|].
    right. unfold last_x, ex_curve. simpl. lra.
  - unfold flux_at. destruct (make_lc_inv _ _ _ _ _ _ _ E) as (_ & _ & _ & _ & _ & (_ & T0 & NP) & _).
    destruct (made_value _ _ _ _ _ _ _ "g"%string _ [10] E eq_refl) as (base & (v & BV & ->) & EV). simpl in BV. injection BV as <-. rewrite EV.
    cbn [map]. unfold wrapped. rewrite NP, T0. unfold first_x, last_x, ex_curve. cbn [tb_rows hd last fst snd].
    replace (Rleb (1 - 1) 10 && Rleb 10 (4 - 1))%bool with false; [reflexivity|]. symmetry. apply andb_false_iff. right. apply Rleb_false. lra.
Qed.
(** Each filter's colour: with or without the prefix "LSST_", and Roman's. *)
Theorem C117_template_colours : (forall f c, In (f, c) [("u", "purple"); ("g", "blue"); ("r", "green"); ("i", "yellow"); ("z", "orange"); ("y", "red")]%string ->
    filter_colour f c /\ filter_colour ("LSST_" ++ f)%string c) /\
  (forall f c, In (f, c) [("F062", "blue"); ("F087", "purple"); ("F106", "green"); ("F129", "orange"); ("F146", "gray"); ("F158", "orangered"); ("F184", "magenta"); ("F213", "red")]%string -> filter_colour f c) /\
  length lsst_colors = 20%nat.
Proof.
  split; [|split; [|reflexivity]]; intros f c H; repeat (destruct H as [H|H]; [injection H as <- <-; first [split; reflexivity | reflexivity]|]); destruct H.
Qed.
