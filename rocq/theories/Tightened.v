(** Theorems added after seeded bugs survived: passband validation and groups (C31-C33, C65), random and additive
    multi-object models (C46, C47), unit conversion (C54), efficiency functions and Roman errors (C56, C74). *)
From Coq Require Import Reals String List Bool Arith ZArith Lia Lra.
From Verif Require Import Base BaseFacts RealBase PassbandModel PassbandProofs PassbandProps PassbandGroupProps SedModel SedProps SedPipeline SedBands SedMulti NoiseModel NoiseProps.
Import ListNotations.
Open Scope R_scope.

(** ** C65: units *)
(** Unknown wavelength units are refused, whatever the table: no passband is built. *)
Theorem C65_bad_units : forall t s f d q, (forall p, pb_make t s f d q BadUnits <> Ok p) /\
  (increasing (xs t) -> pb_make t s f d q BadUnits = Err ValueError).
Proof.
  intros t s f d q. unfold pb_make, validate. split.
  - intros p. destruct (existsb _ _); [discriminate|]. destruct (existsb _ _); discriminate.
  - intros H. assert (P : forall x, In x (diffs (xs t)) -> 0 < x).
    { revert H. generalize (xs t). clear. induction l as [|a l IH]; [now simpl|]. destruct l as [|b l]; [now simpl|].
      intros H x Hx. destruct H as [H1 H2]. destruct Hx as [<- | Hx]; [lra|auto]. }
    replace (existsb (fun d0 => Rltb d0 0) (diffs (xs t))) with false.
    2:{ symmetry. apply not_true_iff_false. intros E. apply existsb_exists in E. destruct E as (x & E1 & E2). apply Rltb_true in E2. apply P in E1. lra. }
    replace (existsb (fun d0 => Reqb d0 0) (diffs (xs t))) with false.
    2:{ symmetry. apply not_true_iff_false. intros E. apply existsb_exists in E. destruct E as (x & E1 & E2). apply Reqb_true in E2. apply P in E1. lra. }
    reflexivity.
Qed.

(** ** C33: the merged grid, without assuming that the wavelengths are separated *)
Lemma keep_gaps_In : forall l a x, nondecreasing (a :: l) ->
  (In x (keep_gaps a l) <-> In x l /\ a < x /\ forall y, In y (a :: l) -> y < x -> threshold <= x - y).
Proof.
  pose proof threshold_pos as TP.
  induction l as [|b l IH]; intros a x HN; [simpl; tauto|]. destruct HN as [HAB HN].
  assert (GE : forall y, In y (b :: l) -> b <= y).
  { intros y Hy. destruct Hy as [<- | Hy]; [lra|]. eapply nondecreasing_head; eauto. }
  cbn [keep_gaps]. destruct (Rleb threshold (b - a)) eqn:E.
  - apply Rleb_true in E. change (In x (b :: keep_gaps b l)) with (b = x \/ In x (keep_gaps b l)). rewrite (IH b x HN). split.
    + intros [<- | (H1 & H2 & H3)].
      * split; [left; auto|]. split; [lra|]. intros y [<- | Hy] HL; [lra|]. apply GE in Hy. lra.
      * split; [right; auto|]. split; [lra|]. intros y [<- | Hy] HL; [|apply H3; auto].
        assert (threshold <= x - b) by (apply H3; [left; auto|auto]). lra.
    + intros (H1 & H2 & H3). destruct H1 as [<- | H1]; [left; auto|].
      destruct (Req_dec b x) as [-> | NE]; [left; auto|]. right. split; auto. split.
      * assert (b <= x) by (apply GE; right; auto). lra.
      * intros y Hy. apply H3. right; auto.
  - apply Rleb_false in E. rewrite (IH b x HN). split.
    + intros (H1 & H2 & H3). split; [right; auto|]. split; [lra|]. intros y [<- | Hy] HL; [|apply H3; auto].
      assert (threshold <= x - b) by (apply H3; [left; auto|auto]). lra.
    + intros (H1 & H2 & H3). assert (HX : b <= x) by (apply GE; auto).
      destruct (Req_dec b x) as [-> | NE].
      { assert (threshold <= x - a) by (apply H3; [left; auto|auto]). lra. }
      destruct H1 as [H1|H1]; [congruence|]. split; auto. split; [lra|]. intros y Hy. apply H3. right; auto.
Qed.
(** A wavelength of some member is on the group's grid exactly if no smaller wavelength of a member is closer than the
    threshold (1e-5 Angstrom): chains of near-duplicates collapse to their first element. *)
Theorem C33_grid_gaps : forall g x, built g ->
  (In x (pg_waves g) <-> In x (all_waves g) /\ forall y, In y (all_waves g) -> y < x -> 1 / 100000 <= x - y).
Proof.
  intros g x HB. destruct (built_inv _ HB) as (K & W & N). rewrite all_waves_bands.
  assert (TV := threshold_val). rewrite <- TV.
  assert (M : pg_waves g = merge_waves (pg_bands g)) by (now apply update_inv in N). rewrite M. unfold merge_waves.
  set (u := flat_map _ (pg_bands g)). clearbody u.
  pose proof (sortR_sorted u) as SO. pose proof (fun x => sortR_In x u) as SI.
  destruct (sortR u) as [|a l].
  - rewrite <- SI. simpl. tauto.
  - change (In x (a :: keep_gaps a l)) with (a = x \/ In x (keep_gaps a l)). rewrite (keep_gaps_In _ _ _ SO).
    assert (GE : forall y, In y (a :: l) -> a <= y).
    { intros y Hy. destruct Hy as [<- | Hy]; [lra|]. eapply nondecreasing_head; eauto. }
    rewrite <- SI. split.
    + intros [<- | (H1 & H2 & H3)].
      * split; [left; auto|]. intros y Hy HL. apply SI, GE in Hy. lra.
      * split; [right; auto|]. intros y Hy. apply H3. now apply SI.
    + intros (H1 & H2). destruct (Req_dec a x) as [-> | NE]; [left; auto|]. right.
      destruct H1 as [H1|H1]; [congruence|]. split; auto. split.
      * assert (a <= x) by (apply GE; right; auto). lra.
      * intros y Hy. apply H2. now apply SI.
Qed.

(** Processing a group processes each member, with the parameters given to the group. *)
Theorem C33_process_members : forall g d q g', pg_process g d q = Ok g' ->
  Forall2 (fun p p' => pb_process p d q = Ok p') (members g) (members g') /\ dkeys (pg_bands g') = dkeys (pg_bands g).
Proof.
  intros g d q g' H. unfold pg_process in H. destruct (fold_res _ [] (pg_bands g)) as [b|] eqn:E; [|discriminate]. cbn [bind] in H.
  destruct (process_fold _ _ _ _ _ E) as (b2 & -> & F). simpl in H. destruct (update_inv _ _ H) as (EB & _). unfold members. rewrite EB. clear H E EB.
  split; induction F as [|x y l l2 [F1 F2] F IH]; simpl; auto. f_equal; auto.
Qed.
(** If one member cannot be processed so, the call raises that member's error (of the first such member). *)
Theorem C33_process_fails : forall g d q e l1 p l2, members g = l1 ++ p :: l2 -> (forall p', In p' l1 -> exists r, pb_process p' d q = Ok r) ->
  pb_process p d q = Err e -> pg_process g d q = Err e.
Proof.
  intros g d q e l1 p l2 HM H1 HE. unfold pg_process, members in *. remember (pg_bands g) as b. clear Heqb g.
  match goal with |- bind (fold_res ?F _ _) _ = _ => assert (X : forall b acc l1, map snd b = l1 ++ p :: l2 -> (forall p', In p' l1 -> exists r, pb_process p' d q = Ok r) -> fold_res F acc b = Err e) end.
  { clear b HM l1 H1. induction b as [|fb b IH]; intros acc l1 HM H1; [destruct l1; discriminate|]. cbn [fold_res]. destruct l1 as [|p1 l1]; simpl in HM; inversion HM; subst.
    - rewrite HE. reflexivity.
    - destruct (H1 (snd fb) (or_introl eq_refl)) as (r & E). rewrite E. cbn [bind]. eapply IH; [eassumption|]. intros; apply H1; right; auto. }
  now rewrite (X b [] l1 HM H1).
Qed.

(** [fluxes_to_bandfluxes]: a flux matrix whose width is not the size of the grid (or that is empty) is refused; otherwise the
    result has one entry per member, in order and keyed by the full names, holding that member's band fluxes. *)
Lemma bandfluxes_fold : forall g m (b : dict passband) acc out,
  fold_res (fun acc fb => bind (pg_bandflux g m (fst fb)) (fun x => Ok (dset (fst fb) x acc))) acc b = Ok out -> NoDup (dkeys b) ->
  (forall k, In k (dkeys b) -> ~ In k (dkeys acc)) ->
  dkeys out = dkeys acc ++ dkeys b /\ (forall k, In k (dkeys b) -> exists x, pg_bandflux g m k = Ok x /\ dget k out = Some x) /\
  (forall k, ~ In k (dkeys b) -> dget k out = dget k acc).
Proof.
  intros g m. induction b as [|[k p] b IH]; intros acc out H ND HD.
  - simpl in H. inversion H; subst. simpl. rewrite app_nil_r. split; auto. split; auto. intros k [].
  - cbn [fold_res fst] in H. destruct (pg_bandflux g m k) as [x|] eqn:E; [|discriminate]. cbn [bind] in H.
    unfold dkeys in ND. simpl in ND. apply NoDup_cons_iff in ND. destruct ND as [N1 N2]. fold (dkeys b) in N1, N2.
    assert (NK : ~ In k (dkeys acc)) by (apply HD; simpl; auto).
    assert (EK : dkeys (dset k x acc) = dkeys acc ++ [k]). { rewrite dkeys_dset. apply dmem_false in NK. now rewrite NK. }
    destruct (IH _ _ H N2) as (A & B & C).
    { intros k' Hk HI. rewrite EK in HI. apply in_app_or in HI. destruct HI as [HI|[<- |[]]]; [|auto]. apply (HD k'); simpl; auto. }
    split; [|split].
    + rewrite A, EK, <- app_assoc. reflexivity.
    + intros k' [E'|Hk]; simpl in *; [subst k'|auto]. exists x. split; auto. rewrite (C k N1). apply dget_dset_same.
    + intros k' Hn. simpl in Hn. rewrite (C k') by tauto. apply dget_dset_other. intros ->. apply Hn. auto.
Qed.
Theorem C33_bandfluxes : forall g m, built g ->
  (m = [] -> pg_bandfluxes g m = Err ValueError) /\
  (forall r l, m = r :: l -> length r <> length (pg_waves g) \/ length r = 0%nat -> pg_bandfluxes g m = Err ValueError) /\
  (forall out, pg_bandfluxes g m = Ok out -> dkeys out = map pb_full (members g) /\
     forall p, In p (members g) -> exists x, pg_bandflux g m (pb_full p) = Ok x /\ dget (pb_full p) out = Some x).
Proof.
  intros g m HB. destruct (built_inv _ HB) as ((K1 & K2) & _ & _). split; [|split].
  - now intros ->.
  - intros r l -> H. unfold pg_bandfluxes. destruct H as [H|H].
    + assert (E : (length (pg_waves g) =? length r)%nat = false) by (apply Nat.eqb_neq; auto). rewrite E. cbn [negb]. now rewrite orb_true_r.
    + now rewrite H.
  - intros out H. unfold pg_bandfluxes in H. destruct m as [|r l]; [discriminate|]. destruct (_ || _)%bool; [discriminate|].
    destruct (bandfluxes_fold _ _ _ _ _ H K1) as (A & B & _); [intros k _ []|]. simpl in A. unfold members. rewrite (full_names _ K2). split; auto.
    intros p Hp. apply B. rewrite <- (full_names _ K2). now apply in_map.
Qed.
(** For spectra sampled on the group's grid each entry is what the member alone computes on its own grid. *)
Theorem C33_bandfluxes_spectra : forall g (seds : list (R -> R)) out, built g -> separated (all_waves g) ->
  pg_bandfluxes g (map (fun f => map f (pg_waves g)) seds) = Ok out ->
  forall p, In p (members g) -> exists x, dget (pb_full p) out = Some x /\ fluxes_to_bandflux p (map (fun f => map f (pb_waves p)) seds) = Ok x.
Proof.
  intros g seds out HB HS H p Hp. destruct (C33_bandfluxes g (map (fun f => map f (pg_waves g)) seds) HB) as (_ & _ & X). destruct (X _ H) as (_ & Y). destruct (Y p Hp) as (x & E1 & E2).
  exists x. split; auto. rewrite <- (C33_bandflux g p seds HB HS Hp). exact E1.
Qed.

(** ** C47: effects on a random model *)
(** An observer-frame effect added to the multi-object model is applied once, after the selected component (and after the effects
    added before it); a rest-frame effect is handed to the components. *)
Theorem C47_rest_effect : forall node se objs names obs e, ef_rest e = true ->
  add_effect (PRand node se objs names obs) e = PRand node se (map (fun o => add_effect o e) objs) names obs.
Proof. intros. simpl. now rewrite H. Qed.
Theorem C47_observer_effect : forall node se objs names obs e ts ws fs (st : gst) kw (ps : params) pb i name o, ef_rest e = false ->
  NoDup names -> nth_error names i = Some name -> nth_error objs i = Some o -> dget node st = Some ps ->
  dget "selected_object" ps = Some (PStr name) -> length fs = length ts ->
  (existsb is_band objs = false ->
   evaluate_sed (add_effect (PRand node se objs names obs) e) ts ws [st] kw =
   match evaluate_sed (PRand node se objs names obs) ts ws [st] kw with
   | Ok (SOne m) => bind (ef_apply e ts ws ps m) (fun x => Ok (SOne x))
   | Ok (SMany l) => Ok (SMany l)
   | Err x => Err x
   end) /\
  evaluate_bandfluxes (add_effect (PRand node se objs names obs) e) pb ts (Some fs) [st] =
   match evaluate_bandfluxes (PRand node se objs names obs) pb ts (Some fs) [st] with
   | Ok (BOne b) => bind (ef_band e ts fs ps b) (fun x => Ok (BOne x))
   | Ok (BMany l) => Ok (BMany l)
   | Err x => Err x
   end.
Proof.
  intros node se objs names obs e ts ws fs st kw ps pb i name o HR ND HN HO HP HS HL. simpl add_effect. rewrite HR.
  destruct (C47_selected node (add_params (ef_params e) se) objs names (obs ++ [e]) ts ws fs st ps kw pb i name o ND HN HO HP HS HL) as [A1 A2].
  destruct (C47_selected node se objs names obs ts ws fs st ps kw pb i name o ND HN HO HP HS HL) as [B1 B2]. split.
  - intros HB. rewrite A1, B1 by auto. destruct (evaluate_sed o ts ws [st] kw) as [[m|l]|x]; auto.
    unfold apply_effects. assert (FA : forall es m, fold_res (fun m e => ef_apply e ts ws ps m) m (es ++ [e]) = bind (fold_res (fun m e => ef_apply e ts ws ps m) m es) (fun m => ef_apply e ts ws ps m)).
    { induction es as [|e' es IH]; intros m'; simpl; [now destruct (ef_apply e ts ws ps m')|]. destruct (ef_apply e' ts ws ps m'); auto. }
    rewrite FA. destruct (fold_res _ m obs); auto.
  - rewrite A2, B2. destruct (evaluate_bandfluxes o pb ts (Some fs) [st]) as [[b|l]|x]; auto. unfold apply_bands.
    match goal with |- context[fold_res ?F b (obs ++ [e])] => assert (FA : forall es b, fold_res F b (es ++ [e]) = bind (fold_res F b es) (fun b => F b e)) end.
    { induction es as [|e' es IH]; intros b'; simpl; [now destruct (ef_band e ts fs ps b')|]. destruct (ef_band e' ts fs ps b'); auto. }
    rewrite FA. destruct (fold_res _ b obs); auto.
Qed.
(** ** C46: wavelength bounds of an additive model: the components' bounds, in order *)
Theorem C46_minwave : forall node se objs w obs st bounds, Forall2 (fun o b => minwave o st = Ok b) objs bounds ->
  minwave (PAdd node se objs w obs) st = Ok (WList bounds).
Proof.
  intros node se objs w obs st bounds F. simpl.
  match goal with |- bind (?G objs) _ = _ => assert (X : G objs = Ok bounds) end; [|now rewrite X].
  induction F as [|o b objs bounds F1 F IH]; auto. simpl. rewrite F1. cbn [bind]. now rewrite IH.
Qed.
(** ** C54: numpy broadcasting of a single wavelength, or of a single flux per row *)
Theorem C54_one_wavelength : forall m w wu fl fn,
  flam_to_fnu m [w] wu fl fn = Ok (map (map (fun x => fl * (wu * wu) / fn * (x * (w * w) / light_speed))) m) /\
  fnu_to_flam m [w] wu fl fn = Ok (map (map (fun x => fn / (wu * wu) / fl * (x * light_speed / (w * w)))) m).
Proof.
  intros m w wu fl fn. assert (B : forall f, bc f m [w] = Ok (map (map (fun x => f x w)) m)).
  { intros f. unfold bc. induction m as [|r m IH]; auto. simpl. assert (E : bc_row f r [w] = Ok (map (fun x => f x w) r)).
    { unfold bc_row. destruct r as [|x [|y r]]; reflexivity. }
    rewrite E. cbn [bind]. rewrite IH. reflexivity. }
  unfold flam_to_fnu, fnu_to_flam, bulk_convert. rewrite !B. cbn [bind].
  split; f_equal; rewrite map_map; apply map_ext; intros r; rewrite map_map; apply map_ext; intros x; unfold Rdiv; rewrite ?Rinv_1; ring.
Qed.
Theorem C54_one_flux : forall xs' ws wu fl fn, Forall (fun r => exists x, r = [x]) xs' -> length ws <> 1%nat ->
  flam_to_fnu xs' ws wu fl fn = Ok (map (fun r => map (fun w => fl * (wu * wu) / fn * (nth 0 r 0 * (w * w) / light_speed)) ws) xs').
Proof.
  intros m ws wu fl fn HF HW. assert (B : forall f, bc f m ws = Ok (map (fun r => map (fun w => f (nth 0 r 0) w) ws) m)).
  { intros f. unfold bc. induction HF as [|r m [x ->] HF IH]; auto. simpl. assert (E : bc_row f [x] ws = Ok (map (fun w => f x w) ws)).
    { unfold bc_row. destruct ws as [|w [|w2 ws]]; [reflexivity|simpl in HW; congruence|reflexivity]. }
    rewrite E. cbn [bind]. rewrite IH. reflexivity. }
  unfold flam_to_fnu, bulk_convert. rewrite !B. cbn [bind].
  f_equal; rewrite map_map; apply map_ext; intros r; rewrite map_map; apply map_ext; intros x; unfold Rdiv; rewrite ?Rinv_1; ring.
Qed.

(** ** C79: efficiency functions (obs_utils.py) *)
(** Photometric: exactly the observations above five sigma are detected, with certainty. *)
Theorem C79_photometric : forall snr, (5 < snr -> phot_eff snr = 1) /\ (snr <= 5 -> phot_eff snr = 0).
Proof.
  intros snr. unfold phot_eff. split; intros H.
  - now replace (Rltb 5 snr) with true by (symmetry; now apply Rltb_true).
  - now replace (Rltb 5 snr) with false by (symmetry; apply Rltb_false; lra).
Qed.
(** Spectroscopic: a probability strictly between 0 and 1, strictly decreasing in the magnitude (brighter objects are followed up more
    often), one half at i = 51.9 / 2.36, and symmetric about it; it takes every value in between. *)
Theorem C79_spectroscopic : forall m, 0 < spec_eff m < 1 /\ (forall m', m < m' -> spec_eff m' < spec_eff m) /\
  spec_eff (519 / 10 / (236 / 100)) = 1 / 2 /\
  (forall d, spec_eff (519 / 10 / (236 / 100) + d) + spec_eff (519 / 10 / (236 / 100) - d) = 1).
Proof.
  intros m. unfold spec_eff. assert (EP : forall x, 0 < exp x) by apply exp_pos. split; [|split; [|split]].
  - pose proof (EP (236 / 100 * m - 519 / 10)) as P. rewrite Rmult_1_l. split; [apply Rinv_0_lt_compat; lra|].
    rewrite <- Rinv_1 at 2. apply Rinv_lt_contravar; lra.
  - intros m' H. rewrite !Rmult_1_l. pose proof (EP (236 / 100 * m - 519 / 10)) as P. pose proof (EP (236 / 100 * m' - 519 / 10)) as P'.
    apply Rinv_lt_contravar; [apply Rmult_lt_0_compat; lra|]. apply Rplus_lt_compat_l, exp_increasing. lra.
  - replace (236 / 100 * (519 / 10 / (236 / 100)) - 519 / 10) with 0 by lra. rewrite exp_0. lra.
  - intros d. replace (236 / 100 * (519 / 10 / (236 / 100) + d) - 519 / 10) with (236 / 100 * d) by lra.
    replace (236 / 100 * (519 / 10 / (236 / 100) - d) - 519 / 10) with (- (236 / 100 * d)) by lra.
    rewrite exp_Ropp. pose proof (EP (236 / 100 * d)) as P. field. lra.
Qed.
Theorem C79_any_efficiency : forall e, 0 < e < 1 -> exists m, spec_eff m = e.
Proof.
  intros e H. assert (P : 0 < / e - 1). { assert (1 < / e); [|lra]. rewrite <- Rinv_1. apply Rinv_lt_contravar; lra. }
  exists ((ln (/ e - 1) + 519 / 10) / (236 / 100)). unfold spec_eff.
  replace (236 / 100 * ((ln (/ e - 1) + 519 / 10) / (236 / 100)) - 519 / 10) with (ln (/ e - 1)) by lra.
  rewrite exp_ln by auto. replace (1 + (/ e - 1)) with (/ e) by ring. rewrite Rinv_inv. ring.
Qed.
