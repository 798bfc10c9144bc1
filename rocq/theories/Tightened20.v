(** Model curves that cannot be drawn. *)
From Coq Require Import Reals String List Bool Arith Lia Lra Permutation.
From Verif Require Import Base BaseFacts RealBase SedModel SedBands PlotModel PlotProps.
Import ListNotations.
Open Scope list_scope.
Open Scope nat_scope.

Lemma seq_draw_fails : forall A (f : axes -> A -> drawing) e l x, (forall y a, In a l -> snd (f y a) = None \/ snd (f y a) = Some e) ->
  (exists a, In a l /\ forall y, snd (f y a) = Some e) -> snd (seq_draw f l x) = Some e.
Proof.
  intros A f e l. unfold seq_draw. assert (K : forall l y, snd (fold_left (fun d a => match d with (z, None) => f z a | _ => d end) l (y, Some e)) = Some e) by (induction l0; auto).
  induction l as [|a l IH]; intros x P (b & I & Q); [destruct I|]. cbn [fold_left].
  destruct (P x a (or_introl eq_refl)) as [N|N]; destruct (f x a) as [y o] eqn:E; cbn in N; subst o.
  - apply IH; [intros; apply P; now right|]. destruct I as [->|I]; [specialize (Q x); rewrite E in Q; discriminate|eauto].
  - apply K.
Qed.
(** With a curve for one of the filters but no times for the model the call is a KeyError; with times of another length than
    the curve's it is a ValueError.  (The samples could all have been drawn.) *)
Theorem C117_model_refused : forall (os : list obs) (errs : bool) d ax title colormap f ys, coloured colormap (map o_filter os) ->
  In f (map o_filter os) -> dget f d = Some ys ->
  let run := plot_lightcurves (map o_flux os) (map o_time os) (if errs then Some (map o_err os) else None) (Some (map o_filter os)) (Some d) ax title colormap in
  (dget "times"%string d = None -> snd run = Some KeyError) /\
  (forall ts, dget "times"%string d = Some ts -> length ts <> length ys -> snd run = Some ValueError).
Proof.
  intros os errs d ax title colormap f ys HC HI HY run. set (fs := map o_filter os) in *. set (x0 := given_axes ax). unfold run, plot_lightcurves. fold (given_axes ax). fold x0.
  rewrite !map_length, Nat.eqb_refl. cbn [negb]. assert (LF : length fs = length os) by apply map_length. rewrite LF, Nat.eqb_refl. cbn [negb].
  replace (match (if errs then Some (map o_err os) else None) with Some es => negb (length es =? length os) | None => false end) with false
    by (destruct errs; auto; now rewrite map_length, Nat.eqb_refl).
  set (names := unique_names fs).
  assert (CM : exists cm, match colormap with Some c => Ok c | None => default_colormap names end = Ok cm /\ forall f, In f fs -> exists c, dget f cm = Some c).
  { destruct colormap as [c|].
    - exists c. split; auto. intros g HF. specialize (HC g HF). destruct (dget g c) as [k|] eqn:E; [eauto|congruence].
    - destruct HC as (l & HL & HJ). assert (LN : length names <= 7).
      { apply Nat.le_trans with (length l); auto. apply NoDup_incl_length; [apply NoDup_unique|]. intros g HF. apply HJ. now apply (proj1 (unique_names_In _ _)). }
      destruct (default_ok names (NoDup_unique _) LN) as (c & E & I). exists c. split; auto. intros g HF. apply (proj2 (unique_names_In _ _)) in HF. destruct (I g HF) as (i & H1 & H2 & H3).
      destruct (nth_error ["b"; "g"; "r"; "c"; "m"; "y"; "k"]%string i) as [k|] eqn:EK; [|apply nth_error_None in EK; simpl in EK; lia]. exists k. congruence. }
  destruct CM as (cm & -> & CM).
  set (pf := plot_filter (map o_flux os) (map o_time os) (if errs then Some (map o_err os) else None) (Some d) cm (fun f => Some (map (fun g => String.eqb g f) fs))).
  (* without the curve a filter is drawn *)
  assert (SOK : forall g y c, In g fs -> dget g cm = Some c ->
    snd (match (if errs then Some (map o_err os) else None) with
         | None => plot_xy (Points ("Sample " ++ g)%string c) (masked (map (fun h => String.eqb h g) fs) (map o_time os)) (masked (map (fun h => String.eqb h g) fs) (map o_flux os)) y
         | Some es => (draw (ErrorBars ("Sample " ++ g)%string c (combine (combine (masked (map (fun h => String.eqb h g) fs) (map o_time os)) (masked (map (fun h => String.eqb h g) fs) (map o_flux os))) (masked (map (fun h => String.eqb h g) fs) es))) y, None)
         end) = None).
  { intros g y c _ _. destruct errs; [reflexivity|]. unfold plot_xy, fs. rewrite !masked_rows, !map_length, Nat.eqb_refl. reflexivity. }
  assert (HI' : In f names) by (now apply unique_names_In).
  assert (R : forall e, (forall y g, In g fs -> snd (pf y g) = None \/ snd (pf y g) = Some e) -> (forall y, snd (pf y f) = Some e) ->
    snd (match seq_draw pf names x0 with
         | (x, Some e) => (x, Some e)
         | (x, None) => (with_legend (1 <? length names) (with_labels "Time (MJD)" "Flux (nJy)" (with_title title x)), None) end) = Some e).
  { intros e P Q. assert (S : snd (seq_draw pf names x0) = Some e).
    { apply seq_draw_fails; [|eauto]. intros y g J. apply P. now apply (proj1 (unique_names_In _ _)). }
    destruct (seq_draw pf names x0) as [z o]. cbn in S. subst o. reflexivity. }
  split.
  - intros NT. apply R.
    + intros y g J. unfold pf, plot_filter. rewrite NT. destruct (CM g J) as (c & EC). destruct (dget g d); [now right|]. left. rewrite EC. now apply SOK.
    + intros y. unfold pf, plot_filter. now rewrite NT, HY.
  - intros ts ET LT. apply R.
    + intros y g J. unfold pf, plot_filter. rewrite ET. destruct (CM g J) as (c & EC). rewrite EC. destruct (dget g d) as [zs|].
      * unfold plot_xy at 1 3. destruct (length ts =? length zs); [|now right]. left. now apply SOK.
      * left. now apply SOK.
    + intros y. unfold pf, plot_filter. rewrite ET, HY. destruct (CM f HI) as (c & EC). rewrite EC. unfold plot_xy at 1.
      apply Nat.eqb_neq in LT. now rewrite LT.
Qed.
Example C117_model_refused_case : snd (plot_lightcurves [10; 20]%R [1; 2]%R None (Some ["r"; "g"]%string) (Some [("r", [5; 6]%R); ("times", [1]%R)]%string) None None None) = Some ValueError.
Proof.
  apply (proj2 (C117_model_refused [mkObs "r" 1 10 1; mkObs "g" 2 20 2] false [("r", [5; 6]%R); ("times", [1]%R)]%string None None None "r"%string [5; 6]%R
    ltac:(exists ["r"; "g"]%string; split; [cbn; lia|apply incl_refl]) ltac:(cbn; auto) eq_refl) [1]%R eq_refl). cbn. lia.
Qed.
