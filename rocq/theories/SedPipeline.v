(** Property C42: evaluating an SED model.  Property C68: effects on SEDs and on band fluxes. *)
From Coq Require Import Reals String List Bool Arith ZArith Lia Lra.
From Verif Require Import Base BaseFacts RealBase PassbandModel PassbandProofs PassbandProps ObsTableModel SedModel SedProps.
Import ListNotations.
Open Scope R_scope.

(** The matrix of a function over times and wavelengths. *)
Definition mat (ts ws : list R) (F : R -> R -> R) : matrix := map (fun t => map (F t) ws) ts.
(** With these parameter values effect [e] turns the flux x at (t, w) into [g t w x]. *)
Definition acts (e : effect) (ps : params) (g : R -> R -> R -> R) : Prop :=
  forall ts ws F, ef_apply e ts ws ps (mat ts ws F) = Ok (mat ts ws (fun t w => g t w (F t w))).
Lemma mat_ext : forall ts ws F G, (forall t w, In t ts -> In w ws -> F t w = G t w) -> mat ts ws F = mat ts ws G.
Proof. intros. unfold mat. apply map_ext_in. intros t Ht. apply map_ext_in. auto. Qed.
Lemma apply_effects_mat : forall ps (g : effect -> R -> R -> R -> R) es ts ws F, (forall e, In e es -> acts e ps (g e)) ->
  apply_effects es ts ws ps (mat ts ws F) = Ok (mat ts ws (fun t w => fold_left (fun x e => g e t w x) es (F t w))).
Proof.
  induction es as [|e es IH]; intros ts ws F H; [reflexivity|]. unfold apply_effects in *. cbn [fold_res].
  rewrite (H e (or_introl eq_refl)). rewrite IH by (intros; apply H; right; auto). reflexivity.
Qed.
Lemma entry_mat : forall ts ws F i j t w, nth_error ts i = Some t -> nth_error ws j = Some w -> entry (mat ts ws F) i j = Some (F t w).
Proof. intros. unfold entry, mat. rewrite nth_error_map, H. cbn [option_map]. now rewrite nth_error_map, H0. Qed.

(** ** The specification of an evaluated flux *)
(** Effects [effs] (in the order in which they were added, with actions [g]) on a model with rest-frame flux
    [f], redshift z and reference epoch t0, seen at observer time t and wavelength w. *)
Definition expected_flux (f : R -> R -> R) (g : effect -> R -> R -> R -> R) (effs : list effect) (z t0 t w : R) : R :=
  let t' := t0 + (t - t0) / (1 + z) in
  let w' := w / (1 + z) in
  let rest := fold_left (fun x e => g e t' w' x) (filter ef_rest effs) (f t' w') in
  fold_left (fun x e => g e t w x) (filter (fun e => negb (ef_rest e)) effs) ((1 + z) * rest).
(** Redshift z about t0 is in force: switched on with that parameter value (t0 matters only for z <> 0), or switched off
    and z = 0. *)
Definition in_force (s : sed) (ps : params) (z t0 : R) : Prop :=
  (sd_redshift s = true /\ dget "redshift" ps = Some (PNum z) /\ (z = 0 \/ dget "t0" ps = Some (PNum t0))) \/
  (sd_redshift s = false /\ z = 0).

Lemma add_all : forall effs s, let s' := fold_left sd_add_effect effs s in
  sd_node s' = sd_node s /\ sd_redshift s' = sd_redshift s /\ sd_min s' = sd_min s /\ sd_max s' = sd_max s /\
  sd_extrap s' = sd_extrap s /\ sd_compute s' = sd_compute s /\
  sd_rest s' = sd_rest s ++ filter ef_rest effs /\ sd_obs s' = sd_obs s ++ filter (fun e => negb (ef_rest e)) effs.
Proof.
  induction effs as [|e effs IH]; intros s; [simpl; rewrite !app_nil_r; auto 10|].
  cbn [fold_left]. destruct (IH (sd_add_effect s e)) as (A & B & C & D & E & F & G & H). cbv zeta.
  rewrite A, B, C, D, E, F, G, H. unfold sd_add_effect. cbn [filter]. destruct (ef_rest e); simpl; rewrite <- ?app_assoc; auto 10.
Qed.
Lemma rest_frame_force : forall s ps ts ws z t0, in_force s ps z t0 -> -1 < z ->
  exists oz, rest_frame s ps ts ws = Ok (map (fun t => t0 + (t - t0) / (1 + z)) ts, map (fun w => w / (1 + z)) ws, oz) /\
             (match oz with Some z' => z' = z | None => z = 0 end).
Proof.
  intros s ps ts ws z t0 H Hz. unfold rest_frame, obs_to_rest.
  assert (ZERO : z = 0 -> map (fun t => t0 + (t - t0) / (1 + z)) ts = ts /\ map (fun w => w / (1 + z)) ws = ws).
  { intros ->. split.
    - rewrite <- (map_id ts) at 2. apply map_ext. intros t. field.
    - rewrite <- (map_id ws) at 2. apply map_ext. intros w. field. }
  destruct H as [(R1 & R2 & R3)|[R1 R2]]; rewrite R1.
  - rewrite R2. destruct (Reqb z 0) eqn:E.
    + apply Reqb_true in E. destruct (ZERO E) as [-> ->]. eauto.
    + apply Reqb_false in E. destruct R3 as [R3|R3]; [congruence|]. rewrite R3. exists (Some z). split; [|reflexivity]. do 3 f_equal.
      apply map_ext. intros t. ring.
  - destruct (ZERO R2) as [-> ->]. eauto.
Qed.
Lemma mat_map : forall ts ws a b F, mat (map a ts) (map b ws) F = mat ts ws (fun t w => F (a t) (b w)).
Proof. intros. unfold mat. rewrite map_map. apply map_ext. intros. now rewrite map_map. Qed.

(** Main theorem: a model to which the effects [effs] were added in this order, evaluated through the public
    interface, returns exactly the expected flux at every time and wavelength. *)
Theorem C42_pipeline : forall s0 effs ts ws (st : gst) kw (ps : params) z t0 f g,
  sd_rest s0 = [] -> sd_obs s0 = [] ->
  dget (sd_node s0) st = Some ps -> in_force s0 ps z t0 -> -1 < z ->
  computes s0 st kw f -> ws <> [] ->
  (forall e, sd_extrap s0 = Some e -> extrap_made e) ->
  (forall lo hi, sd_min s0 st = Some lo -> sd_max s0 st = Some hi -> lo <= hi) ->
  (forall e, In e effs -> acts e ps (g e)) ->
  evaluate_sed (fold_left add_effect effs (PSed s0)) ts ws [st] kw =
  Ok (SOne (mat ts ws (expected_flux (extended s0 st f) g effs z t0))).
Proof.
  intros s0 effs ts ws st kw ps z t0 f g HR HO HP HF Hz HC HW HE HB HA.
  assert (FL : fold_left add_effect effs (PSed s0) = PSed (fold_left sd_add_effect effs s0)).
  { clear. revert s0. induction effs as [|e effs IH]; intros s0; [reflexivity|]. simpl fold_left at 1. rewrite IH. reflexivity. }
  rewrite FL. destruct (add_all effs s0) as (A & B & C & D & E & F & G & H). set (s := fold_left sd_add_effect effs s0) in *.
  rewrite HR in G. rewrite HO in H. cbn [app] in G, H. unfold evaluate_sed, eval_single, sed_single, local_params.
  rewrite A, HP. cbn [bind].
  assert (HF' : in_force s ps z t0) by (unfold in_force in *; now rewrite B).
  destruct (rest_frame_force s ps ts ws z t0 HF' Hz) as (oz & RF & OZ). rewrite RF. cbn [bind].
  rewrite (C43_values s _ _ st kw f).
  - cbn [bind]. change (map (fun t1 => map (extended s st f t1) (map (fun w => w / (1 + z)) ws)) (map (fun t => t0 + (t - t0) / (1 + z)) ts))
      with (mat (map (fun t => t0 + (t - t0) / (1 + z)) ts) (map (fun w => w / (1 + z)) ws) (extended s st f)).
    rewrite (apply_effects_mat ps g) by (rewrite G; intros e He; apply filter_In in He; apply HA; tauto). cbn [bind].
    rewrite mat_map.
    set (F1 := fun t w => fold_left (fun x e => g e (t0 + (t - t0) / (1 + z)) (w / (1 + z)) x) (sd_rest s) (extended s st f (t0 + (t - t0) / (1 + z)) (w / (1 + z)))).
    assert (M2 : match oz with Some z' => rest_to_obs_flux (mat ts ws F1) z' | None => mat ts ws F1 end
                 = mat ts ws (fun t w => (1 + z) * F1 t w)).
    { destruct oz as [z'|]; [subst z'|]; unfold rest_to_obs_flux, mat.
      - rewrite map_map. apply map_ext. intros t. rewrite map_map. apply map_ext. intros w. ring.
      - apply map_ext. intros t. apply map_ext. intros w. rewrite OZ. ring. }
    rewrite M2. rewrite (apply_effects_mat ps g) by (rewrite H; intros e He; apply filter_In in He; apply HA; tauto).
    cbn [bind]. do 2 f_equal. apply mat_ext. intros t w _ _. unfold expected_flux, F1. rewrite G, H.
    assert (XE : extended s st f = extended s0 st f) by (unfold extended; now rewrite C, D, E). now rewrite XE.
  - intros ts' ws' kw' K. rewrite F. apply HC, K.
  - intros X. apply map_eq_nil in X. contradiction.
  - rewrite E. auto.
  - rewrite C, D. auto.
Qed.
(** In particular: switched off or at redshift 0 the model is evaluated at the observer's own times and wavelengths. *)
Theorem C42_no_redshift : forall f g effs t0 t w, expected_flux f g effs 0 t0 t w =
  fold_left (fun x e => g e t w x) (filter (fun e => negb (ef_rest e)) effs)
    (fold_left (fun x e => g e t w x) (filter ef_rest effs) (f t w)).
Proof.
  intros. unfold expected_flux. replace (t0 + (t - t0) / (1 + 0)) with t by field. replace (w / (1 + 0)) with w by field.
  rewrite Rplus_0_r, Rmult_1_l. reflexivity.
Qed.
(** Missing values: a switched-on redshift needs a redshift, and a t0 unless the redshift is 0. *)
Theorem C42_missing : forall s ts ws (st : gst) kw (ps : params), dget (sd_node s) st = Some ps -> sd_redshift s = true ->
  (dget "redshift" ps = Some PNone -> evaluate_sed (PSed s) ts ws [st] kw = Err ValueError) /\
  (forall z, dget "redshift" ps = Some (PNum z) -> z <> 0 -> dget "t0" ps = Some PNone \/ dget "t0" ps = None ->
     evaluate_sed (PSed s) ts ws [st] kw = Err ValueError).
Proof.
  intros s ts ws st kw ps HP HR.
  assert (X : evaluate_sed (PSed s) ts ws [st] kw = bind (sed_single s ts ws st kw) (fun x => Ok (SOne x))) by reflexivity.
  rewrite X. unfold sed_single, local_params. rewrite HP. cbn [bind]. unfold rest_frame. rewrite HR. split.
  - intros ->. reflexivity.
  - intros z -> Hz H. apply Reqb_false in Hz. rewrite Hz. destruct H as [-> | ->]; reflexivity.
Qed.
(** Several samples: one flux matrix per sample, in order; each the result of evaluating that sample alone. *)
Lemma fold_single : forall A B (F : A -> result B) l acc,
  fold_res (fun x a => bind (F a) (fun b => Ok (x ++ [b]))) acc l = bind (fold_res (fun x a => bind (F a) (fun b => Ok (x ++ [b]))) [] l) (fun r => Ok (acc ++ r)).
Proof.
  induction l as [|a l IH]; intros acc; simpl; [now rewrite app_nil_r|]. destruct (F a) as [b|e]; simpl; auto.
  rewrite (IH (acc ++ [b])), (IH [b]). destruct (fold_res _ [] l); simpl; auto. now rewrite <- app_assoc.
Qed.
Lemma fold_collect : forall A B (F : A -> result B) l r,
  fold_res (fun x a => bind (F a) (fun b => Ok (x ++ [b]))) [] l = Ok r <-> Forall2 (fun a b => F a = Ok b) l r.
Proof.
  induction l as [|a l IH]; intros r; simpl.
  - split; [intros H; inversion H; constructor|intros H; inversion H; reflexivity].
  - destruct (F a) as [b|e] eqn:E; simpl.
    + rewrite fold_single. destruct (fold_res _ [] l) as [r'|e'] eqn:E'; simpl.
      * split.
        -- intros H. inversion H; subst. constructor; auto. now apply IH.
        -- intros H. inversion H as [|? b' ? r'' H1 H2]; subst. apply IH in H2. congruence.
      * split; [discriminate|]. intros H. inversion H as [|? b' ? r'' H1 H2]; subst. apply IH in H2. congruence.
    + split; [discriminate|]. intros H. inversion H; congruence.
Qed.
Theorem C42_samples : forall m ts ws sts kw l, length sts <> 1%nat ->
  (evaluate_sed m ts ws sts kw = Ok (SMany l) <-> Forall2 (fun st x => evaluate_sed m ts ws [st] kw = Ok (SOne x)) sts l).
Proof.
  intros m ts ws sts kw l HN.
  assert (X : evaluate_sed m ts ws sts kw = bind (fold_res (fun l st => bind (eval_single m ts ws st kw) (fun x => Ok (l ++ [x]))) [] sts)
              (fun l => Ok (SMany l))).
  { destruct sts as [|a [|b sts]]; auto. simpl in HN. congruence. }
  rewrite X. transitivity (fold_res (fun l st => bind (eval_single m ts ws st kw) (fun x => Ok (l ++ [x]))) [] sts = Ok l).
  - destruct (fold_res _ [] sts); simpl; split; intros H; inversion H; auto.
  - rewrite fold_collect.
    assert (S1 : forall st x, eval_single m ts ws st kw = Ok x <-> evaluate_sed m ts ws [st] kw = Ok (SOne x)).
    { intros st x. unfold evaluate_sed. destruct (eval_single m ts ws st kw); simpl; split; intros H; inversion H; auto. }
    clear X HN. split; intros H; induction H as [|st x sts l H1 H2 IH]; constructor; auto; now apply S1.
Qed.
(** ** Effect parameters *)
(** Adding an effect adds its parameters to the model, but never replaces one the model already has. *)
Lemma add_params_get : forall ps d k, dget k (add_params ps d) = match dget k d with Some v => Some v | None => dget k ps end.
Proof.
  induction ps as [|[n v] ps IH]; intros d k; simpl; [destruct (dget k d); auto|].
  unfold add_params in *. cbn [fold_left fst snd]. rewrite IH. clear IH.
  unfold dmem. destruct (dget n d) as [v0|] eqn:E.
  - destruct (dget k d) as [x|] eqn:E2; auto. destruct (String.eqb_spec k n) as [->|]; auto. congruence.
  - destruct (String.eqb_spec k n) as [->|N].
    + rewrite dget_dset_same. now rewrite E.
    + rewrite dget_dset_other by congruence. auto.
Qed.
Theorem C42_effect_parameters : forall s e k, dget k (sd_setters (sd_add_effect s e)) =
  match dget k (sd_setters s) with Some v => Some v | None => dget k (ef_params e) end.
Proof. intros. unfold sd_add_effect. destruct (ef_rest e); simpl; apply add_params_get. Qed.
(** Hence two effects with a parameter of the same name share the first one's value: a second dimming by 1/10
    dims by 1/2 again. *)
Theorem C42_own_parameters_refuted : exists s m,
  s = sd_add_effect (sd_add_effect (mkSed "m" [] false (fun _ => None) (fun _ => None) None
        (fun ts ws _ _ => Ok (map (fun _ => map (fun _ => 8) ws) ts)) [] []) (dimming true (PNum (1/2)))) (dimming true (PNum (1/10))) /\
  evaluate_sed (PSed s) [0] [1000] [[("m"%string, sd_setters s)]] [] = Ok (SOne m) /\ m = [[2]].
Proof.
  eexists. eexists. split; [reflexivity|]. split; [|reflexivity].
  unfold evaluate_sed, eval_single, sed_single. cbn. rewrite (proj2 (Rleb_true 1000 1000)) by lra. cbn. do 4 f_equal. lra.
Qed.

(** ** The concrete effects *)
Lemma combine_map_same : forall A B C (h : A -> B) (k : A * B -> C) l, map k (combine l (map h l)) = map (fun x => k (x, h x)) l.
Proof. induction l; simpl; f_equal; auto. Qed.
Theorem C68_dimming_acts : forall rest v ps fr, num_param "flux_fraction" ps = Some fr -> acts (dimming rest v) ps (fun t w x => x * fr).
Proof. intros rest v ps fr H ts ws F. simpl. rewrite H. unfold mat. rewrite map_map. f_equal. apply map_ext. intros. now rewrite map_map. Qed.
Theorem C68_extinction_acts : forall rest k v ps ebv, num_param "ebv" ps = Some ebv -> acts (extinction rest k v) ps (fun t w x => x * k w ebv).
Proof.
  intros rest k v ps ebv H ts ws F. simpl. rewrite H. unfold mat. rewrite map_map. f_equal. apply map_ext. intros t. rewrite combine_map_same. reflexivity.
Qed.
Theorem C68_microlensing_acts : forall mag a b c d ps t0 u0 te, truthy (dget "apply_microlensing" ps) = true ->
  num_param "microlensing_t0" ps = Some t0 -> num_param "u_0" ps = Some u0 -> num_param "t_E" ps = Some te ->
  acts (microlensing mag a b c d) ps (fun t w x => x * mag t0 u0 te t).
Proof.
  intros mag a b c d ps t0 u0 te H1 H2 H3 H4 ts ws F. simpl. unfold magnify. rewrite H1, H2, H3, H4. cbn [negb]. unfold mat. f_equal.
  rewrite combine_map_same. apply map_ext. intros t. cbn [fst snd]. now rewrite map_map.
Qed.
Theorem C68_microlensing_off : forall mag a b c d ps ts ws m, truthy (dget "apply_microlensing" ps) = false ->
  ef_apply (microlensing mag a b c d) ts ws ps m = Ok m.
Proof. intros. simpl. unfold magnify. now rewrite H. Qed.
Theorem C68_missing_parameter : forall ps ts ws m rest k v a b c d mag fs bf,
  (num_param "flux_fraction" ps = None -> ef_apply (dimming rest v) ts ws ps m = Err ValueError /\ ef_band (dimming rest v) ts fs ps bf = Err ValueError) /\
  (num_param "ebv" ps = None -> ef_apply (extinction rest k v) ts ws ps m = Err ValueError) /\
  (truthy (dget "apply_microlensing" ps) = true ->
   num_param "microlensing_t0" ps = None \/ num_param "u_0" ps = None \/ num_param "t_E" ps = None ->
   ef_apply (microlensing mag a b c d) ts ws ps m = Err ValueError).
Proof.
  intros. split; [intros H; simpl; now rewrite H|]. split; [intros H; simpl; now rewrite H|].
  intros H1 H2. simpl. unfold magnify. rewrite H1. cbn [negb].
  destruct (num_param "microlensing_t0" ps); destruct (num_param "u_0" ps); destruct (num_param "t_E" ps); auto.
  destruct H2 as [H2|[H2|H2]]; discriminate.
Qed.
(** Applying dimming or microlensing to the SEDs and then integrating through a passband is the same as
    integrating and then applying the effect to the band fluxes. *)
Lemma row_scale : forall (phi : table) d k row, length row = length phi ->
  row_bandflux phi d (map (fun x => x * k) row) = row_bandflux phi d row * k.
Proof.
  intros phi d k row H. replace (map (fun x => x * k) row) with (map (fun p => k * fst p + 0 * snd p) (combine row row)).
  - change (map (fun p => k * fst p + 0 * snd p) (combine row row)) with (rows_comb k 0 row row). rewrite C30_linear; auto. ring.
  - clear. induction row; simpl; f_equal; auto. ring.
Qed.
Lemma bandflux_rows : forall p m b, fluxes_to_bandflux p m = Ok b -> b = map (row_bandflux (pb_table p) (pb_delta p)) m.
Proof.
  intros p m b H. unfold fluxes_to_bandflux in H. destruct m as [|r m]; [discriminate|]. destruct (length r =? 0)%nat; [discriminate|].
  destruct (negb _); [discriminate|]. inversion H; auto.
Qed.
Definition rectangular (p : passband) (m : matrix) : Prop := Forall (fun r => length r = length (pb_waves p)) m.
Lemma bandflux_scaled : forall p ts (k : R -> R) (m : matrix) b, rectangular p m -> length m = length ts ->
  fluxes_to_bandflux p m = Ok b ->
  fluxes_to_bandflux p (map (fun tr => map (fun x => x * k (fst tr)) (snd tr)) (combine ts m)) =
  Ok (map (fun tx => snd tx * k (fst tx)) (combine ts b)).
Proof.
  intros p ts k m b HR HL HB. rewrite (bandflux_rows p m b HB). unfold fluxes_to_bandflux in *. destruct m as [|r m]; [discriminate|].
  destruct ts as [|t ts]; [discriminate|]. cbn [combine map fst snd]. rewrite map_length.
  destruct (length r =? 0)%nat; [discriminate|]. destruct (negb _); [discriminate|]. f_equal.
  inversion HR as [|? ? H1 H2]; subst. unfold pb_waves, xs in *. f_equal.
  - apply row_scale. now rewrite H1, map_length.
  - apply (f_equal pred) in HL. cbn [length pred] in HL. clear HB H1 HR b. revert ts HL. induction H2 as [|r2 m H HF IH]; intros ts HL; destruct ts as [|t' ts]; try discriminate; auto.
    cbn [combine map fst snd]. f_equal; [apply row_scale; now rewrite H, map_length|]. apply IH. simpl in *. lia.
Qed.
Theorem C68_dimming_band : forall rest v p ts ws fs ps m b fr m', rectangular p m -> length m = length ts -> num_param "flux_fraction" ps = Some fr ->
  fluxes_to_bandflux p m = Ok b -> ef_apply (dimming rest v) ts ws ps m = Ok m' ->
  fluxes_to_bandflux p m' = ef_band (dimming rest v) ts fs ps b.
Proof.
  intros rest v p ts ws fs ps m b fr m' HR HL HF HB HM. simpl in *. rewrite HF in *. inversion HM; subst. clear HM.
  assert (LB : length b = length ts) by (rewrite (bandflux_rows _ _ _ HB), map_length; auto).
  replace (map (map (fun x => x * fr)) m) with (map (fun tr : R * list R => map (fun x => x * (fun _ => fr) (fst tr)) (snd tr)) (combine ts m)).
  - rewrite (bandflux_scaled p ts (fun _ => fr) m b); auto. f_equal. clear - LB. revert ts LB. induction b as [|x b IH]; intros [|t ts] H; simpl in *; try discriminate; auto.
    f_equal. apply IH. lia.
  - clear - HL. revert ts HL. induction m as [|r m IH]; intros [|t ts] H; simpl in *; try discriminate; auto. f_equal. apply IH. lia.
Qed.
Theorem C68_microlensing_band : forall mag a b c d p ts ws fs ps m bf m', rectangular p m -> length m = length ts ->
  fluxes_to_bandflux p m = Ok bf -> ef_apply (microlensing mag a b c d) ts ws ps m = Ok m' ->
  fluxes_to_bandflux p m' = ef_band (microlensing mag a b c d) ts fs ps bf.
Proof.
  intros mag a b c d p ts ws fs ps m bf m' HR HL HB HM. simpl in *. unfold magnify in *. destruct (truthy _); cbn [negb] in *.
  - destruct (num_param "microlensing_t0" ps) as [t0|]; [|discriminate]. destruct (num_param "u_0" ps) as [u0|]; [|discriminate].
    destruct (num_param "t_E" ps) as [te|]; [|discriminate]. inversion HM; subst. apply bandflux_scaled; auto.
  - inversion HM; subst. auto.
Qed.
(** Extinction has no band-flux form. *)
Theorem C68_extinction_band_refuted : forall k v ts fs ps b, ef_band (extinction false k v) ts fs ps b = Err NotImplementedError.
Proof. reflexivity. Qed.
(** Dimming by a constant may be applied in either frame. *)
Theorem C68_dimming_either_frame : forall f g effs z t0 t w fr v,
  (forall e t w x, In e effs -> g e t w (x * fr) = g e t w x * fr) ->
  (forall r t w x, g (dimming r v) t w x = x * fr) ->
  expected_flux f g (effs ++ [dimming true v]) z t0 t w = expected_flux f g (effs ++ [dimming false v]) z t0 t w.
Proof.
  intros f g effs z t0 t w fr v HL HD. unfold expected_flux. rewrite !filter_app. cbn [filter ef_rest dimming negb].
  rewrite !app_nil_r, !fold_left_app. cbn [fold_left].
  change (mkEff true [("flux_fraction"%string, v)] _ _) with (dimming true v).
  change (mkEff false [("flux_fraction"%string, v)] _ _) with (dimming false v). rewrite !HD.
  set (r := fold_left _ (filter ef_rest effs) _). replace ((1 + z) * (r * fr)) with ((1 + z) * r * fr) by ring.
  generalize ((1 + z) * r). clear r. assert (HL' : forall e t w x, In e (filter (fun e => negb (ef_rest e)) effs) -> g e t w (x * fr) = g e t w x * fr).
  { intros e t' w' x He. apply filter_In in He. now apply HL. }
  clear HL. induction (filter (fun e => negb (ef_rest e)) effs) as [|e l IH]; intros y; simpl; auto.
  rewrite HL' by (left; auto). rewrite IH; auto. intros. apply HL'. right; auto.
Qed.
(** A worked case: redshift 1 about t0 = 60, a rest-frame dimming by 1/2 and an observer-frame extinction. *)
Example C42_case : exists s, sd_rest s = [] /\ sd_obs s = [] /\
  let effs := [extinction false (fun w e => w / 1000) (PNum 1); dimming true (PNum (1/2))] in
  let st := [("m"%string, [("redshift", PNum 1); ("t0", PNum 60); ("ebv", PNum 1); ("flux_fraction", PNum (1/2))]%string)] in
  evaluate_sed (fold_left add_effect effs (PSed s)) [80] [4000] [st] [] = Ok (SOne [[((1 + 1) * ((70 + 2000) * (1/2))) * (4000 / 1000)]]).
Proof.
  set (s := mkSed "m" [] true (fun _ => None) (fun _ => None) None (fun ts ws _ _ => Ok (map (fun t => map (fun w => t + w) ws) ts)) [] []).
  exists s. split; auto. split; auto. cbv zeta.
  set (effs := [extinction false (fun w e => w / 1000) (PNum 1); dimming true (PNum (1/2))]).
  set (ps := [("redshift", PNum 1); ("t0", PNum 60); ("ebv", PNum 1); ("flux_fraction", PNum (1/2))]%string).
  assert (HA : forall e, In e effs -> acts e ps (fun t w x => if ef_rest e then x * (1/2) else x * (w / 1000))).
  { intros e [<-|[<-|[]]].
    - change (acts (extinction false (fun w _ => w / 1000) (PNum 1)) ps (fun t w x => x * (fun w (_ : R) => w / 1000) w 1)).
      apply C68_extinction_acts with (ebv := 1). reflexivity.
    - change (acts (dimming true (PNum (1/2))) ps (fun t w x => x * (1/2))). apply C68_dimming_acts. reflexivity. }
  etransitivity; [apply (C42_pipeline s effs [80] [4000] [("m"%string, ps)] [] ps 1 60 (fun t w => t + w) (fun e t w x => if ef_rest e then x * (1/2) else x * (w / 1000)));
    auto; try discriminate; try lra|].
  - left. split; auto.
  - intros ts ws kw _. reflexivity.
  - unfold mat, expected_flux, extended. cbn. repeat f_equal; lra.
Qed.
