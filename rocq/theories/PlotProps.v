(** Property C117: what the plotting functions draw (PlotModel.v). *)
From Coq Require Import Reals String List Bool Arith Lia Lra Permutation.
From Verif Require Import Base BaseFacts RealBase SedModel SedBands PlotModel.
Import ListNotations.
Open Scope list_scope.
Open Scope nat_scope.

Record obs := mkObs { o_filter : string; o_time : R; o_flux : R; o_err : R }.
(** The colours a caller can rely on: the given colormap has the filter, or there are at most seven filters. *)
Definition coloured (colormap : option (dict string)) (fs : list string) : Prop :=
  match colormap with Some c => forall f, In f fs -> dget f c <> None | None => exists l, length l <= 7 /\ incl fs l end.
Definition colour_of (colormap : option (dict string)) (names : list string) (f c : string) : Prop :=
  match colormap with Some m => dget f m = Some c | None => exists i, nth_error names i = Some f /\ nth_error ["b"; "g"; "r"; "c"; "m"; "y"; "k"]%string i = Some c end.
Definition model_ok (model : option (dict (list R))) (fs : list string) : Prop :=
  forall d f ys, model = Some d -> In f fs -> dget f d = Some ys -> exists ts, dget "times"%string d = Some ts /\ length ts = length ys.
(** The curve of the model for the filter, if it has one. *)
Definition model_curve (model : option (dict (list R))) (f c : string) (arts : list artist) : Prop :=
  match model with
  | Some d => match dget f d with
              | Some ys => exists ts, dget "times"%string d = Some ts /\ arts = [Curve ("Model " ++ f)%string c (combine ts ys)]
              | None => arts = []
              end
  | None => arts = []
  end.
Definition sample (errs : bool) (f c : string) (rows : list obs) : artist :=
  if errs then ErrorBars ("Sample " ++ f)%string c (map (fun o => (o_time o, o_flux o, o_err o)) rows)
  else Points ("Sample " ++ f)%string c (map (fun o => (o_time o, o_flux o)) rows).
Definition of_filter (f : string) (os : list obs) : list obs := filter (fun o => String.eqb (o_filter o) f) os.
Definition given_axes (ax : option axes) : axes := match ax with Some x => x | None => new_axes end.

Lemma seq_draw_err : forall A (f : axes -> A -> drawing) l x e, fold_left (fun d a => match d with (x, None) => f x a | _ => d end) l (x, Some e) = (x, Some e).
Proof. induction l; simpl; auto. Qed.
Lemma draw_artists : forall a x, ax_artists (draw a x) = ax_artists x ++ [a].
Proof. reflexivity. Qed.
Definition put_artists (l : list artist) (x : axes) : axes := mkAxes (ax_artists x ++ l) (ax_title x) (ax_xlabel x) (ax_ylabel x) (ax_legend x) (ax_xticks x) (ax_yticks x).
Lemma put_nil : forall x, put_artists [] x = x.
Proof. intros []. unfold put_artists. simpl. now rewrite app_nil_r. Qed.
Lemma put_put : forall a b x, put_artists b (put_artists a x) = put_artists (a ++ b) x.
Proof. intros. unfold put_artists. simpl. now rewrite app_assoc. Qed.
Lemma seq_draw_ok : forall A (f : axes -> A -> drawing) (P : A -> list artist -> Prop) l x, (forall a y, In a l -> exists g, P a g /\ f y a = (put_artists g y, None)) ->
  exists gs, Forall2 P l gs /\ seq_draw f l x = (put_artists (concat gs) x, None).
Proof.
  unfold seq_draw. induction l as [|a l IH]; intros x H.
  - exists []. split; [constructor|]. simpl. now rewrite put_nil.
  - destruct (H a x (or_introl eq_refl)) as (g & G & E). destruct (IH (put_artists g x)) as (gs & GS & E2); [intros; apply H; now right|].
    exists (g :: gs). split; [now constructor|]. simpl. rewrite E, E2, put_put. reflexivity.
Qed.
Lemma masked_rows : forall (X : Type) (g : obs -> X) f os, masked (map (fun h => String.eqb h f) (map o_filter os)) (map g os) = map g (of_filter f os).
Proof. intros. unfold masked, of_filter. induction os as [|o os IH]; simpl; auto. destruct (String.eqb (o_filter o) f); simpl; congruence. Qed.
Lemma combine_map2 : forall (X A B : Type) (g : X -> A) (h : X -> B) l, combine (map g l) (map h l) = map (fun o => (g o, h o)) l.
Proof. induction l; simpl; congruence. Qed.

(** The default colours. *)
Lemma NoDup_unique : forall fs, NoDup (unique_names fs).
Proof. intros. apply sorted_names_NoDup, unique_names_sorted. Qed.
Lemma default_from : forall fs k d, NoDup fs -> (forall f, In f fs -> dget f d = None) -> k + length fs <= 7 ->
  exists c, fold_res (fun d (fi : string * nat) => match nth_error colors (snd fi) with Some c => Ok (dset (fst fi) c d) | None => Err IndexError end) d (combine fs (seq k (length fs))) = Ok c /\
    (forall f, ~ In f fs -> dget f c = dget f d) /\ (forall i f, nth_error fs i = Some f -> dget f c = nth_error colors (k + i)).
Proof.
  induction fs as [|f fs IH]; intros k d ND HD HK; cbn [length seq combine fold_res].
  - exists d. split; [reflexivity|]. split; auto. intros i f H. destruct i; discriminate.
  - cbn [snd fst]. simpl in HK. destruct (nth_error colors k) as [c|] eqn:EC.
    2:{ apply nth_error_None in EC. simpl in EC. lia. }
    inversion ND as [|? ? N1 N2]; subst. destruct (IH (S k) (dset f c d)) as (m & E & O & I); auto; [|lia|].
    { intros g HG. rewrite dget_dset_other; [apply HD; now right|]. intros ->. auto. }
    exists m. split; [exact E|]. split.
    + intros g HG. rewrite O by (intros X; apply HG; now right). rewrite dget_dset_other; auto. intros ->. apply HG. now left.
    + intros i g HG. destruct i as [|i]; simpl in HG.
      * injection HG as <-. rewrite O by auto. rewrite dget_dset_same, Nat.add_0_r. auto.
      * rewrite (I i g HG). f_equal. lia.
Qed.
Lemma default_ok : forall fs, NoDup fs -> length fs <= 7 -> exists c, default_colormap fs = Ok c /\
  forall f, In f fs -> exists i, nth_error fs i = Some f /\ dget f c = nth_error ["b"; "g"; "r"; "c"; "m"; "y"; "k"]%string i /\ i < 7.
Proof.
  intros fs ND HL. destruct (default_from fs 0 [] ND) as (c & E & _ & I); [reflexivity|lia|]. exists c. split; [exact E|].
  intros f HF. destruct (In_nth_error _ _ HF) as (i & HI). exists i. split; auto. split; [now rewrite (I i f HI)|].
  assert (i < length fs) by (apply nth_error_Some; congruence). lia.
Qed.
Lemma default_many : forall fs k d, 7 < k + length fs -> k <= 7 ->
  fold_res (fun d (fi : string * nat) => match nth_error colors (snd fi) with Some c => Ok (dset (fst fi) c d) | None => Err IndexError end) d (combine fs (seq k (length fs))) = Err IndexError.
Proof.
  induction fs as [|f fs IH]; intros k d HK HK2; simpl in HK; [lia|]. cbn [length seq combine fold_res snd fst].
  destruct (nth_error colors k) as [c|] eqn:EC; [|reflexivity]. assert (k < length colors) by (apply nth_error_Some; congruence). simpl in H. apply IH; lia.
Qed.

Lemma plot_xy_eq : forall mk a b x, length a = length b -> plot_xy mk a b x = (put_artists [mk (combine a b)] x, None).
Proof. intros. unfold plot_xy. now rewrite (proj2 (Nat.eqb_eq _ _) H). Qed.

(** Filters given: for each distinct filter, in alphabetical order, the model's curve (if the model has that filter) and then one series with exactly the
    observations in that filter, in their order, in the filter's colour. *)
Theorem C117_samples : forall (os : list obs) (errs : bool) model ax title colormap, let fs := map o_filter os in
  coloured colormap fs -> model_ok model fs ->
  exists x names gs, plot_lightcurves (map o_flux os) (map o_time os) (if errs then Some (map o_err os) else None) (Some fs) model ax title colormap = (x, None) /\
    sorted_names names /\ (forall f, In f names <-> In f fs) /\
    Forall2 (fun f g => exists c m, colour_of colormap names f c /\ model_curve model f c m /\ g = m ++ [sample errs f c (of_filter f os)]) names gs /\
    ax_artists x = ax_artists (given_axes ax) ++ concat gs /\
    ax_title x = match title with Some _ => title | None => ax_title (given_axes ax) end /\ ax_xlabel x = "Time (MJD)"%string /\ ax_ylabel x = "Flux (nJy)"%string /\
    ax_legend x = ((1 <? length names) || ax_legend (given_axes ax))%bool /\ ax_xticks x = ax_xticks (given_axes ax) /\ ax_yticks x = ax_yticks (given_axes ax).
Proof.
  intros os errs model ax title colormap fs HC HM. set (x0 := given_axes ax). unfold plot_lightcurves. fold (given_axes ax). fold x0.
  rewrite !map_length, Nat.eqb_refl. cbn [negb]. unfold fs at 1. rewrite map_length, Nat.eqb_refl. cbn [negb].
  replace (match (if errs then Some (map o_err os) else None) with Some es => negb (length es =? length os) | None => false end) with false
    by (destruct errs; auto; now rewrite map_length, Nat.eqb_refl).
  set (names := unique_names fs).
  assert (CM : exists cm, match colormap with Some c => Ok c | None => default_colormap names end = Ok cm /\ forall f, In f fs -> exists c, dget f cm = Some c /\ colour_of colormap names f c).
  { destruct colormap as [c|].
    - exists c. split; auto. intros f HF. specialize (HC f HF). destruct (dget f c) as [k|] eqn:E; [|congruence]. exists k. split; auto.
    - destruct HC as (l & HL & HI). assert (LN : length names <= 7).
      { apply Nat.le_trans with (length l); auto. apply NoDup_incl_length; [apply NoDup_unique|]. intros f HF. apply HI. now apply (proj1 (unique_names_In _ _)). }
      destruct (default_ok names (NoDup_unique _) LN) as (c & E & I). exists c. split; auto. intros f HF. apply (proj2 (unique_names_In _ _)) in HF. destruct (I f HF) as (i & H1 & H2 & H3).
      destruct (nth_error ["b"; "g"; "r"; "c"; "m"; "y"; "k"]%string i) as [k|] eqn:EK; [|apply nth_error_None in EK; simpl in EK; lia]. exists k. split; auto. exists i. auto. }
  destruct CM as (cm & -> & CM).
  destruct (seq_draw_ok string (plot_filter (map o_flux os) (map o_time os) (if errs then Some (map o_err os) else None) model cm
      (fun f => Some (map (fun g => String.eqb g f) fs)))
    (fun f g => exists c m, colour_of colormap names f c /\ model_curve model f c m /\ g = m ++ [sample errs f c (of_filter f os)]) names x0) as (gs & GS & E).
  { intros f y HF. apply (proj1 (unique_names_In _ _)) in HF. destruct (CM f HF) as (c & EC & CO).
    assert (MP : exists m, model_curve model f c m /\ match model with
      | Some d => match dget f d with None => (y, None) | Some ys => match dget "times"%string d with None => (y, Some KeyError) | Some ts =>
          match dget f cm with None => (y, Some KeyError) | Some c => plot_xy (Curve ("Model " ++ f)%string c) ts ys y end end end
      | None => (y, None) end = (put_artists m y, None)).
    { destruct model as [d|]; [|exists []; split; [reflexivity|now rewrite put_nil]]. simpl. destruct (dget f d) as [ys|] eqn:EY.
      - destruct (HM d f ys eq_refl HF EY) as (ts & ET & LL). exists [Curve ("Model " ++ f)%string c (combine ts ys)]. rewrite ET, EC. split; [exists ts; auto|].
        now apply plot_xy_eq.
      - exists []. split; [reflexivity|now rewrite put_nil]. }
    destruct MP as (m & M1 & M2). exists (m ++ [sample errs f c (of_filter f os)]). split; [exists c, m; auto|].
    unfold plot_filter. rewrite M2, EC. unfold fs. rewrite !masked_rows. destruct errs; cbn [sample].
    - rewrite !masked_rows, !combine_map2. change (draw ?a (put_artists m y)) with (put_artists [a] (put_artists m y)). now rewrite put_put.
    - rewrite plot_xy_eq by now rewrite !map_length. rewrite combine_map2, put_put. reflexivity. }
  rewrite E. eexists. exists names, gs. split; [reflexivity|].
  split; [apply unique_names_sorted|]. split; [intros; apply unique_names_In|]. split; [exact GS|].
  unfold with_title, with_labels, with_legend, put_artists. destruct title as [t|], (1 <? length names); simpl; repeat split; auto.
Qed.

Definition drawn (l : list artist) : list (R * R) :=
  flat_map (fun a => match a with Points _ _ p => p | ErrorBars _ _ p => map fst p | _ => [] end) l.
Lemma of_filter_cons : forall f o os, of_filter f (o :: os) = if String.eqb (o_filter o) f then o :: of_filter f os else of_filter f os.
Proof. reflexivity. Qed.
Lemma filters_perm : forall (names : list string) (os : list obs), NoDup names -> (forall o, In o os -> In (o_filter o) names) ->
  Permutation (flat_map (fun f => of_filter f os) names) os.
Proof.
  intros names os ND. induction os as [|o os IH]; intros H.
  - replace (flat_map (fun f => of_filter f []) names) with (@nil obs); auto. clear. induction names as [|f names IHN]; auto.
  - assert (IN : In (o_filter o) names) by (apply H; now left). specialize (IH (fun p HP => H p (or_intror HP))).
    transitivity (o :: flat_map (fun f => of_filter f os) names); [|now constructor]. clear IH H.
    induction names as [|f names IHN]; [destruct IN|]. inversion ND as [|? ? N1 N2]; subst. cbn [flat_map]. rewrite of_filter_cons. destruct (String.eqb (o_filter o) f) eqn:E.
    + apply String.eqb_eq in E. rewrite E in *. cbn [app]. constructor. apply Permutation_app_head. clear IHN IN ND.
      induction names as [|g names IHN]; auto. cbn [flat_map]. rewrite of_filter_cons. replace (String.eqb (o_filter o) g) with false.
      * apply Permutation_app_head. inversion N2. apply IHN; auto. intros X. apply N1. now right.
      * symmetry. apply String.eqb_neq. intros X. apply N1. left. congruence.
    + destruct IN as [->|IN]; [rewrite String.eqb_refl in E; discriminate|]. rewrite IHN by auto. symmetry. apply Permutation_middle.
Qed.
(** Every observation is drawn exactly once, with or without error bars. *)
Theorem C117_each_once : forall (os : list obs) (errs : bool) model ax title colormap x, coloured colormap (map o_filter os) -> model_ok model (map o_filter os) ->
  plot_lightcurves (map o_flux os) (map o_time os) (if errs then Some (map o_err os) else None) (Some (map o_filter os)) model ax title colormap = (x, None) ->
  Permutation (drawn (ax_artists x)) (drawn (ax_artists (given_axes ax)) ++ map (fun o => (o_time o, o_flux o)) os).
Proof.
  intros os errs model ax title colormap x HC HM HX. destruct (C117_samples os errs model ax title colormap HC HM) as (y & names & gs & E & SN & NI & FG & EA & _).
  rewrite E in HX. injection HX as <-. rewrite EA. unfold drawn at 1. rewrite flat_map_app. fold (drawn (ax_artists (given_axes ax))). apply Permutation_app_head.
  transitivity (map (fun o => (o_time o, o_flux o)) (flat_map (fun f => of_filter f os) names)).
  - match goal with |- Permutation ?a ?b => enough (a = b) as ->; [reflexivity|] end. clear E EA NI SN. clear HC HM. induction FG as [|f g nm gs' (c & m & _ & MC & ->) FG IH]; auto. unfold drawn in *. cbn [concat flat_map]. rewrite map_app, <- IH. rewrite !flat_map_app.
    rewrite <- app_assoc. match goal with |- flat_map ?F m ++ _ = _ => replace (flat_map F m) with (@nil (R * R)) end.
    + cbn [app flat_map]. rewrite app_nil_r || idtac. f_equal. destruct errs; cbn [sample flat_map]; rewrite ?app_nil_r; auto. rewrite map_map. reflexivity.
    + unfold model_curve in MC. destruct model as [d|]; [|now subst m]. destruct (dget f d); [|now subst m]. destruct MC as (ts & _ & ->). reflexivity.
  - apply Permutation_map. apply filters_perm; [now apply sorted_names_NoDup|]. intros o HO. apply NI. now apply in_map.
Qed.

(** Arrays of different lengths: ValueError and nothing is drawn. *)
Theorem C117_mismatch : forall fluxes times errs filters model ax title colormap,
  length times <> length fluxes \/ (exists fs, filters = Some fs /\ length fs <> length fluxes) \/ (exists es, errs = Some es /\ length es <> length fluxes) ->
  plot_lightcurves fluxes times errs filters model ax title colormap = (given_axes ax, Some ValueError).
Proof.
  intros fluxes times errs filters model ax title colormap H. unfold plot_lightcurves. fold (given_axes ax).
  destruct (length times =? length fluxes) eqn:E1; [|reflexivity]. cbn [negb]. apply Nat.eqb_eq in E1.
  destruct (match filters with Some fs => negb (length fs =? length fluxes) | None => false end) eqn:E2; [reflexivity|].
  destruct (match errs with Some es => negb (length es =? length fluxes) | None => false end) eqn:E3; [reflexivity|]. exfalso.
  destruct H as [H|[(fs & -> & H)|(es & -> & H)]]; [auto| |]; [apply negb_false_iff, Nat.eqb_eq in E2|apply negb_false_iff, Nat.eqb_eq in E3]; auto.
Qed.
(** "Any filters": without a colormap at most seven distinct filters can be drawn; with eight the call ends in IndexError, and nothing is drawn. *)
Theorem C117_eight_filters_refuted : forall fs errs model ax title, NoDup fs -> 7 < length fs -> forall fluxes times, length fluxes = length fs -> length times = length fs ->
  (forall es, errs = Some es -> length es = length fs) ->
  plot_lightcurves fluxes times errs (Some fs) model ax title None = (given_axes ax, Some IndexError).
Proof.
  intros fs errs model ax title ND HL fluxes times H1 H2 HE. unfold plot_lightcurves. fold (given_axes ax). rewrite H1, H2, Nat.eqb_refl. cbn [negb].
  replace (match errs with Some es => negb (length es =? length fs) | None => false end) with false
    by (destruct errs as [es|]; auto; rewrite (HE es eq_refl), Nat.eqb_refl; reflexivity).
  unfold default_colormap. rewrite default_many; [reflexivity| |lia]. simpl. apply Nat.lt_le_trans with (length fs); auto.
  apply NoDup_incl_length; auto. intros f HF. now apply unique_names_In.
Qed.
(** Without filters ("all points are treated as coming from the same filter") not one point is drawn. *)
Theorem C117_no_filters_refuted : forall (fluxes times : list R) ax title colormap, length times = length fluxes -> coloured colormap ["None"%string] ->
  exists x, plot_lightcurves fluxes times None None None ax title colormap = (x, None) /\ drawn (ax_artists x) = drawn (ax_artists (given_axes ax)).
Proof.
  intros fluxes times ax title colormap HL HC. unfold plot_lightcurves. fold (given_axes ax). rewrite HL, Nat.eqb_refl. cbn [negb].
  assert (CM : exists cm c, match colormap with Some c => Ok c | None => default_colormap ["None"%string] end = Ok cm /\ dget "None"%string cm = Some c).
  { destruct colormap as [m|].
    - specialize (HC _ (or_introl eq_refl)). destruct (dget "None"%string m) as [c|] eqn:E; [|congruence]. exists m, c. auto.
    - eexists. exists "b"%string. split; reflexivity. }
  destruct CM as (cm & c & -> & EC). unfold seq_draw. cbn [fold_left]. unfold plot_filter. rewrite EC. unfold plot_xy. cbn [length Nat.eqb combine].
  eexists. split; [reflexivity|]. cbn [length Nat.ltb Nat.leb]. unfold with_legend, with_labels, with_title. destruct title; cbn [ax_artists draw]; unfold drawn; rewrite flat_map_app; simpl; apply app_nil_r.
Qed.
(** With error bars and no filters matplotlib refuses the call. *)
Theorem C117_no_filters_errors_refuted : forall (fluxes times es : list R) ax title colormap, length times = length fluxes -> length es = length fluxes -> coloured colormap ["None"%string] ->
  exists x, plot_lightcurves fluxes times (Some es) None None ax title colormap = (x, Some ValueError).
Proof.
  intros fluxes times es ax title colormap HL HE HC. unfold plot_lightcurves. fold (given_axes ax). rewrite HL, HE, Nat.eqb_refl. cbn [negb].
  assert (CM : exists cm c, match colormap with Some c => Ok c | None => default_colormap ["None"%string] end = Ok cm /\ dget "None"%string cm = Some c).
  { destruct colormap as [m|].
    - specialize (HC _ (or_introl eq_refl)). destruct (dget "None"%string m) as [c|] eqn:E; [|congruence]. exists m, c. auto.
    - eexists. exists "b"%string. split; reflexivity. }
  destruct CM as (cm & c & -> & EC). unfold seq_draw. cbn [fold_left]. unfold plot_filter. rewrite EC. eauto.
Qed.

(** ** [plot_bandflux_lightcurves] *)
Definition bf_step (d : (axes * option (list R)) * option err) (nc : string * list R) : (axes * option (list R)) * option err :=
  match d with
  | ((x, times), None) =>
      let ts := match times with Some ts => ts | None => map INR (seq 0 (length (snd nc))) end in
      let '(x', e) := plot_xy (Series (fst nc)) ts (snd nc) x in ((x', Some ts), e)
  | _ => d
  end.
Lemma bf_some : forall (b : dict (list R)) ts x, (forall n c, In (n, c) b -> length c = length ts) ->
  fold_left bf_step b ((x, Some ts), None) = ((put_artists (map (fun nc => Series (fst nc) (combine ts (snd nc))) b) x, Some ts), None).
Proof.
  induction b as [|[n c] b IH]; intros ts x H; cbn [fold_left map].
  - now rewrite put_nil.
  - unfold bf_step at 2. cbn [fst snd]. rewrite plot_xy_eq by (symmetry; apply (H n); now left). rewrite IH by (intros; eapply H; right; eauto). rewrite put_put. reflexivity.
Qed.
Lemma bf_err : forall b s e, fold_left bf_step b (s, Some e) = (s, Some e).
Proof. induction b; intros [x t] e; simpl; auto. Qed.
Lemma bf_bad : forall (b : dict (list R)) ts x n c, In (n, c) b -> length c <> length ts -> exists y, fold_left bf_step b ((x, Some ts), None) = ((y, Some ts), Some ValueError).
Proof.
  induction b as [|[m d] b IH]; intros ts x n c HI HL; [destruct HI|]. cbn [fold_left]. unfold bf_step at 2. cbn [fst snd]. unfold plot_xy.
  destruct (length ts =? length d) eqn:E.
  - destruct HI as [HI|HI]; [injection HI as -> ->; apply Nat.eqb_eq in E; congruence|]. eapply IH; eauto.
  - rewrite bf_err. eauto.
Qed.
(** Every curve is drawn once under its name, against the times (without times: 0, 1, 2, …), provided every curve has as many values. *)
Theorem C117_bandflux : forall (b : dict (list R)) times ax title ts,
  match times with Some t => ts = t | None => exists n c rest, b = (n, c) :: rest /\ ts = map INR (seq 0 (length c)) end ->
  (forall n c, In (n, c) b -> length c = length ts) ->
  exists x, plot_bandflux b times ax title = (x, None) /\ ax_artists x = ax_artists (given_axes ax) ++ map (fun nc => Series (fst nc) (combine ts (snd nc))) b /\
    ax_title x = match title with Some _ => title | None => ax_title (given_axes ax) end /\ ax_xlabel x = "Time (days)"%string /\ ax_ylabel x = "Flux"%string /\
    ax_legend x = ((1 <? length b) || ax_legend (given_axes ax))%bool.
Proof.
  intros b times ax title ts HT HL. unfold plot_bandflux. fold (given_axes ax). fold bf_step.
  assert (E : fold_left bf_step b ((given_axes ax, times), None) = ((put_artists (map (fun nc => Series (fst nc) (combine ts (snd nc))) b) (given_axes ax), Some ts), None)).
  { destruct times as [t|]; [subst t; now apply bf_some|]. destruct HT as (n & c & rest & -> & ->). cbn [fold_left map fst snd]. unfold bf_step at 2. cbn [fst snd].
    rewrite plot_xy_eq by now rewrite map_length, seq_length. rewrite bf_some by (intros; eapply HL; right; eauto). rewrite put_put. reflexivity. }
  rewrite E. eexists. split; [reflexivity|]. unfold with_title, with_labels, with_legend, put_artists. destruct title as [t|], (1 <? length b); simpl; repeat split; auto.
Qed.
(** "times: if not provided, uses equal spaced ticks": the ticks of the first curve are used for all of them, and a curve of another length ends in ValueError. *)
Theorem C117_bandflux_ticks_refuted : forall n c rest m d ax title, In (m, d) rest -> length d <> length c ->
  exists x, plot_bandflux ((n, c) :: rest) None ax title = (x, Some ValueError).
Proof.
  intros n c rest m d ax title HI HL. unfold plot_bandflux. fold bf_step. cbn [fold_left]. unfold bf_step at 2. cbn [fst snd].
  rewrite plot_xy_eq by now rewrite map_length, seq_length.
  destruct (bf_bad rest (map INR (seq 0 (length c))) (put_artists [Series n (combine (map INR (seq 0 (length c))) c)] (match ax with Some x => x | None => new_axes end)) m d HI) as (y & ->).
  - now rewrite map_length, seq_length.
  - eauto.
Qed.

(** ** [plot_flux_spectrogram] *)
Lemma every_spec : forall A k (l : list A) i, 0 < k -> nth_error (every k l) i = nth_error l (k * i).
Proof.
  intros A k l i HK. unfold every.
  assert (G : forall l s i, nth_error (map snd (filter (fun p : nat * A => fst p mod k =? 0) (combine (seq s (length l)) l))) i = 
    nth_error l (k * i + (k - s mod k) mod k)).
  { clear l i. induction l as [|a l IH]; intros s i; cbn [length seq combine filter map].
    - rewrite !(proj2 (nth_error_None _ _)) by (simpl; lia). reflexivity.
    - pose proof (Nat.mod_upper_bound s k ltac:(lia)) as B. cbn [fst]. destruct (s mod k =? 0) eqn:E.
      + apply Nat.eqb_eq in E. rewrite E, Nat.sub_0_r, Nat.mod_same, Nat.add_0_r by lia. cbn [map snd]. destruct i as [|i].
        * now rewrite Nat.mul_0_r.
        * cbn [nth_error]. rewrite IH. replace (k * S i) with (S (k * i + (k - 1))) by nia. cbn [nth_error]. f_equal. f_equal.
          destruct (Nat.eq_dec k 1) as [->|NK]; [reflexivity|]. replace (S s mod k) with 1.
          -- apply Nat.mod_small. lia.
          -- replace (S s) with (s + 1) by lia. rewrite Nat.add_mod by lia. rewrite E. rewrite (Nat.mod_small 1 k) by lia. simpl. symmetry. apply Nat.mod_small. lia.
      + apply Nat.eqb_neq in E. rewrite IH. replace ((k - s mod k) mod k) with (S ((k - S s mod k) mod k)).
        * rewrite Nat.add_succ_r. reflexivity.
        * rewrite (Nat.mod_small (k - s mod k)) by lia. replace (S s) with (s + 1) by lia. rewrite (Nat.add_mod s 1) by lia.
          destruct (Nat.eq_dec (S (s mod k)) k) as [EK|NK].
          -- replace ((s mod k + 1 mod k) mod k) with 0; [rewrite Nat.sub_0_r, Nat.mod_same; lia|].
             destruct (Nat.eq_dec k 1) as [->|N1]; [lia|]. rewrite (Nat.mod_small 1 k) by lia. replace (s mod k + 1) with k by lia. symmetry. apply Nat.mod_same. lia.
          -- rewrite (Nat.mod_small 1 k) by lia. rewrite (Nat.mod_small (s mod k + 1)) by lia. rewrite Nat.mod_small by lia. lia. }
  rewrite (G l 0 i). rewrite Nat.mod_0_l by lia. rewrite Nat.sub_0_r, Nat.mod_same, Nat.add_0_r by lia. reflexivity.
Qed.
Lemma nth_combine : forall A B (a : list A) (b : list B) i,
  nth_error (combine a b) i = match nth_error a i, nth_error b i with Some x, Some y => Some (x, y) | _, _ => None end.
Proof. induction a as [|x a IH]; intros [|y b] [|i]; simpl; auto. now destruct (nth_error a i). Qed.
Lemma nth_seq : forall n s i, nth_error (seq s n) i = if i <? n then Some (s + i) else None.
Proof.
  induction n as [|n IH]; intros s i; [destruct i; reflexivity|]. destruct i as [|i]; cbn [seq nth_error]; [now rewrite Nat.add_0_r|].
  rewrite IH. change (S i <? S n) with (i <? n). destruct (i <? n); auto. f_equal. lia.
Qed.
Lemma In_numbered : forall A (l : list A) i v, In (i, v) (combine (seq 0 (length l)) l) <-> nth_error l i = Some v.
Proof.
  intros A l i v. split.
  - intros H. apply In_nth_error in H. destruct H as (k & H). rewrite nth_combine, nth_seq in H. destruct (k <? length l); [|discriminate]. destruct (nth_error l k) eqn:E; [|discriminate].
    injection H as <- <-. exact E.
  - intros H. apply (nth_error_In _ i). rewrite nth_combine, nth_seq. replace (i <? length l) with true; [now rewrite H|]. symmetry. apply Nat.ltb_lt. apply nth_error_Some. congruence.
Qed.
Lemma fold_put : forall A (g : A -> list artist) (step : axes -> A -> axes) l x, (forall y a, step y a = put_artists (g a) y) ->
  fold_left step l x = put_artists (flat_map g l) x.
Proof.
  induction l as [|a l IH]; intros x H; cbn [fold_left flat_map]; [now rewrite put_nil|]. rewrite H, IH, put_put by auto. reflexivity.
Qed.
Definition texts_of (tenth : R -> R) (img : list (list R)) : list artist :=
  flat_map (fun jr => flat_map (fun iv => if ((fst iv mod 2 =? 1) && (fst jr mod 40 =? 20))%bool then [Text (fst iv) (fst jr) (tenth (snd iv))] else [])
    (combine (seq 0 (length (snd jr))) (snd jr))) (combine (seq 0 (length img)) img).
Lemma texts_put : forall tenth img x, 
  fold_left (fun x jr => fold_left (fun x iv => if ((fst iv mod 2 =? 1) && (fst jr mod 40 =? 20))%bool then draw (Text (fst iv) (fst jr) (tenth (snd iv))) x else x)
                           (combine (seq 0 (length (snd jr))) (snd jr)) x)
    (combine (seq 0 (length img)) img) x = put_artists (texts_of tenth img) x.
Proof.
  intros. apply fold_put. intros y jr. apply fold_put. intros z iv. destruct ((fst iv mod 2 =? 1) && (fst jr mod 40 =? 20))%bool; [reflexivity|now rewrite put_nil].
Qed.
Lemma NoDup_flat : forall A B (key : B -> nat) (k : A -> nat) (g : A -> list B) l, NoDup (map k l) -> (forall a, NoDup (g a)) -> (forall a b, In b (g a) -> key b = k a) -> NoDup (flat_map g l).
Proof.
  intros A B key k g. induction l as [|a l IH]; intros ND NG HK; [constructor|]. cbn [flat_map map] in *. inversion ND as [|? ? N1 N2]; subst.
  assert (G : forall l1 l2 : list B, NoDup l1 -> NoDup l2 -> (forall b, In b l1 -> ~ In b l2) -> NoDup (l1 ++ l2)).
  { clear. induction l1 as [|b l1 IH]; intros l2 H1 H2 H; [exact H2|]. simpl. inversion H1 as [|? ? X1 X2]; subst. constructor.
    - intros HI. apply in_app_or in HI. destruct HI as [HI|HI]; [auto|]. apply (H b); [now left|exact HI].
    - apply IH; auto. intros c HC. apply H. now right. }
  apply G; auto. intros b HB HF. apply in_flat_map in HF. destruct HF as (c & HC & HD). apply N1. rewrite <- (HK a b HB), (HK c b HD). now apply in_map.
Qed.
Lemma fst_numbered : forall A (l : list A), map fst (combine (seq 0 (length l)) l) = seq 0 (length l).
Proof.
  intros A l. generalize 0. induction l; intros s; simpl; auto. now rewrite IHl.
Qed.
Lemma ticks_spec : forall whole k l i, 0 < k -> nth_error (ticks whole k l) i = match nth_error l (k * i) with Some v => Some (k * i, whole v) | None => None end.
Proof.
  intros. unfold ticks. rewrite nth_combine, !every_spec by auto. rewrite nth_seq, nth_error_map. destruct (nth_error l (k * i)) as [v|] eqn:E; simpl.
  - replace (k * i <? length l) with true; [reflexivity|]. symmetry. apply Nat.ltb_lt, nth_error_Some. congruence.
  - destruct (k * i <? length l); reflexivity.
Qed.
Lemma transpose_nth : forall n m j, nth_error (transpose n m) j = if j <? n then Some (map (fun row => nth j row 0%R) m) else None.
Proof. intros. unfold transpose. rewrite nth_error_map, nth_seq. destruct (j <? n); reflexivity. Qed.

(** The picture's rows are the wavelengths, its columns the times; the value at every odd time and every 40th wavelength (from the 21st) is written, rounded, at its place, once; ticks name every
    4th time and every 50th wavelength. *)
Theorem C117_spectrogram : forall whole tenth (flux : list (list R)) n times waves ax title, (forall row, In row flux -> length row = n) ->
  let x := plot_spectrogram whole tenth flux n times waves ax title in let x0 := given_axes ax in
  exists img texts, ax_artists x = ax_artists x0 ++ Image img :: texts /\
    length img = n /\ (forall row, In row img -> length row = length flux) /\
    (forall i j row v, nth_error flux i = Some row -> nth_error row j = Some v -> exists r, nth_error img j = Some r /\ nth_error r i = Some v) /\
    NoDup texts /\ (forall a, In a texts <-> exists i j row w, a = Text i j (tenth w) /\ nth_error flux i = Some row /\ nth_error row j = Some w /\ i mod 2 = 1 /\ j mod 40 = 20) /\
    ax_title x = Some match title with Some t => t | None => "Flux Spectrogram"%string end /\
    match times with
    | None => ax_xticks x = ax_xticks x0 /\ ax_xlabel x = ax_xlabel x0
    | Some ts => ax_xlabel x = "Time (days)"%string /\ exists l, ax_xticks x = Some l /\ forall k, nth_error l k = match nth_error ts (4 * k) with Some t => Some (4 * k, whole t) | None => None end
    end /\
    match waves with
    | None => ax_yticks x = ax_yticks x0 /\ ax_ylabel x = ax_ylabel x0
    | Some ws => ax_ylabel x = "Wavelength (Angstrom)"%string /\ exists l, ax_yticks x = Some l /\ forall k, nth_error l k = match nth_error ws (50 * k) with Some w => Some (50 * k, whole w) | None => None end
    end.
Proof.
  intros whole tenth flux n times waves ax title HR x x0. unfold x, plot_spectrogram. fold (given_axes ax). fold x0. cbv zeta. rewrite texts_put.
  exists (transpose n flux), (texts_of tenth (transpose n flux)).
  assert (CELL : forall i j row v, nth_error flux i = Some row -> nth_error row j = Some v -> exists r, nth_error (transpose n flux) j = Some r /\ nth_error r i = Some v).
  { intros i j row v H1 H2. assert (j < n) by (rewrite <- (HR row) by (eapply nth_error_In; eauto); apply nth_error_Some; congruence).
    rewrite transpose_nth. replace (j <? n) with true by (symmetry; now apply Nat.ltb_lt). eexists. split; [reflexivity|]. rewrite nth_error_map, H1. simpl. f_equal. now apply nth_error_nth. }
  repeat match goal with |- _ /\ _ => split end.
  - destruct times, waves, title; cbn; rewrite <- app_assoc; reflexivity.
  - unfold transpose. now rewrite map_length, seq_length.
  - intros row HI. unfold transpose in HI. apply in_map_iff in HI. destruct HI as (j & <- & _). apply map_length.
  - exact CELL.
  - unfold texts_of. apply (NoDup_flat _ _ (fun a => match a with Text _ y _ => y | _ => 0 end) fst).
    + rewrite fst_numbered. apply seq_NoDup.
    + intros [j row]. cbn [fst snd]. apply (NoDup_flat _ _ (fun a => match a with Text y _ _ => y | _ => 0 end) fst).
      * rewrite fst_numbered. apply seq_NoDup.
      * intros [i v]. cbn [fst snd]. destruct (_ && _)%bool; repeat constructor. intros [].
      * intros [i v] b. cbn [fst snd]. destruct (_ && _)%bool; [|intros []]. intros [<-|[]]. reflexivity.
    + intros [j row] b HB. cbn [fst snd] in *. apply in_flat_map in HB. destruct HB as ([i v] & _ & HB). cbn [fst snd] in HB. destruct (_ && _)%bool; [|destruct HB].
      destruct HB as [<-|[]]. reflexivity.
  - intros a. unfold texts_of. split.
    + intros HI. apply in_flat_map in HI. destruct HI as ([j r] & HJ & HI). apply In_numbered in HJ. cbn [fst snd] in HI. apply in_flat_map in HI. destruct HI as ([i v] & HV & HI).
      apply In_numbered in HV. cbn [fst snd] in HI. destruct (_ && _)%bool eqn:E; [|destruct HI]. destruct HI as [<-|[]]. apply andb_true_iff in E. destruct E as [E1 E2].
      apply Nat.eqb_eq in E1, E2. rewrite transpose_nth in HJ. destruct (j <? n) eqn:EJ; [|discriminate]. injection HJ as <-. rewrite nth_error_map in HV.
      destruct (nth_error flux i) as [row|] eqn:ER; [|discriminate]. injection HV as <-. exists i, j, row, (nth j row 0%R). repeat split; auto. apply nth_error_nth'.
      rewrite (HR row) by (eapply nth_error_In; eauto). now apply Nat.ltb_lt.
    + intros (i & j & row & w & -> & H1 & H2 & H3 & H4). destruct (CELL i j row w H1 H2) as (r & C1 & C2). apply in_flat_map. exists (j, r). split; [now apply In_numbered|].
      cbn [fst snd]. apply in_flat_map. exists (i, w). split; [now apply In_numbered|]. cbn [fst snd]. rewrite H3, H4. now left.
  - destruct times, waves, title; reflexivity.
  - destruct times as [ts|]; [|destruct waves, title; split; reflexivity]. split; [destruct waves, title; reflexivity|].
    exists (ticks whole 4 ts). split; [destruct waves, title; reflexivity|]. intros k. apply ticks_spec. lia.
  - destruct waves as [ws|]; [|destruct times, title; split; reflexivity]. split; [destruct times, title; reflexivity|].
    exists (ticks whole 50 ws). split; [destruct times, title; reflexivity|]. intros k. apply ticks_spec. lia.
Qed.

(** ** Concrete cases *)
Example C117_samples_ok : exists x, let os := [mkObs "r" 1 10 1; mkObs "g" 2 20 2; mkObs "r" 3 30 3] in
  plot_lightcurves (map o_flux os) (map o_time os) None (Some (map o_filter os)) (Some [("times"%string, [1; 3]%R); ("g"%string, [5; 6]%R)]) None (Some "t"%string) None = (x, None) /\
  ax_artists x = [Curve "Model g" "b" [(1, 5); (3, 6)]%R; Points "Sample g" "b" [(2, 20)]%R; Points "Sample r" "g" [(1, 10); (3, 30)]%R] /\ ax_legend x = true.
Proof. eexists. cbn. split; [reflexivity|split; reflexivity]. Qed.
Example C117_coloured_ok : coloured None (map o_filter [mkObs "r" 1 10 1; mkObs "g" 2 20 2; mkObs "r" 3 30 3]) /\
  model_ok (Some [("times"%string, [1; 3]%R); ("g"%string, [5; 6]%R)]) (map o_filter [mkObs "r" 1 10 1; mkObs "g" 2 20 2; mkObs "r" 3 30 3]).
Proof.
  split.
  - exists ["r"; "g"]%string. split; [simpl; lia|]. intros f H. simpl in *. tauto.
  - intros d f ys H HF HY. injection H as <-. simpl in HF. destruct HF as [<-|[<-|[<-|[]]]]; simpl in HY; try discriminate. injection HY as <-. exists [1; 3]%R. split; reflexivity.
Qed.
(** A colormap without one of the filters: the filters before it are drawn, and the call ends in KeyError. *)
Theorem C117_colormap_refuted : exists x, plot_lightcurves [1; 2]%R [1; 2]%R None (Some ["a"; "b"]%string) None None None (Some [("a", "red")]%string) = (x, Some KeyError) /\
  ax_artists x = [Points "Sample a" "red" [(1, 1)%R]].
Proof. eexists. cbn. split; reflexivity. Qed.
Example C117_eight_ok : plot_lightcurves (repeat 1%R 8) (repeat 1%R 8) None (Some ["a"; "b"; "c"; "d"; "e"; "f"; "g"; "h"]%string) None None None None = (new_axes, Some IndexError).
Proof. reflexivity. Qed.
Example C117_bandflux_ok : exists x, plot_bandflux [("g"%string, [1; 2]%R); ("r"%string, [3; 4]%R)] (Some [10; 20]%R) None None = (x, None) /\
  ax_artists x = [Series "g" [(10, 1); (20, 2)]%R; Series "r" [(10, 3); (20, 4)]%R] /\ ax_legend x = true.
Proof. eexists. cbn. split; [reflexivity|split; reflexivity]. Qed.
Example C117_spectrogram_ok : forall whole tenth, ax_artists (plot_spectrogram whole tenth [[1; 2; 3]; [4; 5; 6]]%R 3 None None None None) = [Image [[1; 4]; [2; 5]; [3; 6]]%R].
Proof. reflexivity. Qed.
