(** Property C87: wrapped sncosmo models. *)
From Coq Require Import Reals String List Bool Arith ZArith Lia Lra.
From Verif Require Import Base BaseFacts RealBase ObsTableModel SedModel SedProps SedPipeline NoiseModel TemplateModel SimpleModels Salt2Model Salt2Props SncosmoModel.
Import ListNotations.
Open Scope R_scope.

(** ** The source's parameters *)
(** A wrapper as the constructor makes it: one value per parameter of the source, and only parameters of the source are
    managed. *)
Definition well (src : source) (m : sncosmo) : Prop :=
  dkeys (sn_values m) = so_names src /\ NoDup (so_names src) /\ (forall n, In n (sn_names m) -> In n (so_names src)) /\ NoDup (sn_names m).
Theorem C87_made_well : forall src attrs node defaults kwargs m, dkeys defaults = so_names src -> NoDup (so_names src) -> NoDup (dkeys kwargs) ->
  sn_make src attrs node defaults kwargs = Ok m -> well src m /\ sn_node m = node /\ sn_values m = defaults /\
  (forall n, In n (sn_names m) <-> In n (dkeys kwargs) /\ In n (so_names src)).
Proof.
  intros src attrs node defaults kwargs m HD HN HK H. unfold sn_make in H. destruct (fold_res _ _ kwargs) as [d|]; [|discriminate]. cbn [bind] in H. injection H as <-.
  assert (NM : forall n, In n (filter (fun k => smem k (so_names src)) (dkeys kwargs)) <-> In n (dkeys kwargs) /\ In n (so_names src)).
  { intros n. rewrite filter_In, smem_In. tauto. }
  split; [|split; [reflexivity|split; [reflexivity|exact NM]]]. unfold well. cbn [sn_values sn_names]. split; auto. split; auto. split; [intros n Hn; now apply NM in Hn|now apply NoDup_filter].
Qed.
Lemma dict_ext : forall V (a b : dict V), dkeys a = dkeys b -> NoDup (dkeys a) -> (forall k, dget k a = dget k b) -> a = b.
Proof.
  induction a as [|[k v] a IH]; intros [|[k' v'] b] HK HN HG; try discriminate; auto. unfold dkeys in *. cbn [map fst] in *. injection HK as <- HK. inversion HN as [|? ? N1 N2]; subst.
  pose proof (HG k) as G. cbn [dget] in G. rewrite String.eqb_refl in G. injection G as <-. f_equal. apply IH; auto.
  intros q. pose proof (HG q) as HQ. cbn [dget] in HQ. destruct (String.eqb_spec q k) as [EQ|NE]; [|exact HQ]. subst q.
  assert (A : dget k a = None) by now apply dget_None. assert (B : dget k b = None) by (apply dget_None; unfold dkeys; now rewrite <- HK). congruence.
Qed.
Lemma pick_all_spec : forall names ps kvs, pick_all names ps = Ok kvs -> dkeys kvs = names /\ forall k, In k names -> dget k kvs = dget k ps.
Proof.
  induction names as [|n names IH]; intros ps kvs H; cbn [pick_all] in H; [injection H as <-; split; [reflexivity|intros k []]|].
  destruct (dget n ps) as [v|] eqn:E; [|discriminate]. destruct (pick_all names ps) as [l|] eqn:EL; [|discriminate]. cbn [bind] in H. injection H as <-.
  destruct (IH ps l EL) as [A B]. split; [unfold dkeys in *; cbn [map fst]; now rewrite A|]. intros k Hk. cbn [dget]. destruct (String.eqb_spec k n) as [->|N]; auto. destruct Hk; [congruence|auto].
Qed.
Lemma pick_all_ok : forall names ps, (forall n, In n names -> dget n ps <> None) -> exists kvs, pick_all names ps = Ok kvs.
Proof.
  induction names as [|n names IH]; intros ps H; [cbn; eauto|]. cbn [pick_all]. destruct (dget n ps) eqn:E; [|elim (H n); simpl; auto].
  destruct (IH ps) as [kvs ->]; [intros; apply H; simpl; auto|]. cbn [bind]. eauto.
Qed.
Lemma source_set_spec : forall src kvs values, (forall k, In k (dkeys kvs) -> In k (so_names src)) -> NoDup (dkeys kvs) -> dkeys values = so_names src ->
  exists values', source_set src kvs values = (Ok tt, values') /\ dkeys values' = so_names src /\
  (forall k, dget k values' = match dget k kvs with Some v => Some v | None => dget k values end).
Proof.
  intros src. induction kvs as [|[n v] kvs IH]; intros values HI HN HK; cbn [source_set]; [exists values; auto|].
  unfold dkeys in HI, HN. cbn [map fst] in HI, HN. inversion HN as [|? ? N1 N2]; subst.
  replace (smem n (so_names src)) with true by (symmetry; apply smem_In; apply HI; now left).
  assert (KD : dkeys (dset n v values) = so_names src). { rewrite dkeys_dset. replace (dmem n values) with true; auto. symmetry. apply dmem_true. rewrite HK. apply HI. now left. }
  destruct (IH (dset n v values)) as (values' & E & K & G); auto. { intros k Hk. apply HI. now right. }
  exists values'. split; auto. split; auto. intros k. rewrite G. cbn [dget]. destruct (String.eqb_spec k n) as [->|N].
  - assert (X : dget n kvs = None) by now apply dget_None. rewrite X. apply dget_dset_same.
  - destruct (dget k kvs); auto. now apply dget_dset_other.
Qed.
(** The parameter values the source is evaluated with for a state: the state's value for every managed parameter, the source's
    own for the others. *)
Definition seen (src : source) (m : sncosmo) (ps : params) (k : string) : option pval :=
  if smem k (sn_names m) then dget k ps else dget k (sn_values m).
Lemma update_ok : forall src m (st : gst) (ps : params), well src m -> dget (sn_node m) st = Some ps -> (forall n, In n (sn_names m) -> dget n ps <> None) ->
  exists values, sn_update src m st = (Ok tt, sn_with m values) /\ dkeys values = so_names src /\ forall k, dget k values = seen src m ps k.
Proof.
  intros src m st ps (W1 & W2 & W3 & W4) HP HA. destruct (pick_all_ok _ _ HA) as [kvs HK]. destruct (pick_all_spec _ _ _ HK) as [K1 K2].
  destruct (source_set_spec src kvs (sn_values m)) as (values & E & K & G); [rewrite K1; auto|now rewrite K1|auto|].
  exists values. unfold sn_update, local_params. rewrite HP. cbn [bind]. rewrite HK, E. split; auto. split; auto. intros k. rewrite G. unfold seen.
  destruct (smem k (sn_names m)) eqn:S1.
  - apply smem_In in S1. rewrite K2 by auto. specialize (HA k S1). destruct (dget k ps); congruence.
  - apply smem_false in S1. assert (X : dget k kvs = None) by (apply dget_None; now rewrite K1). now rewrite X.
Qed.
(** A state that lacks a managed parameter is refused, leaving the source alone. *)
Lemma update_missing : forall src m (st : gst) n, In n (sn_names m) -> (forall ps : params, dget (sn_node m) st = Some ps -> dget n ps = None) ->
  sn_update src m st = (Err KeyError, m).
Proof.
  intros src m st n HN HP. unfold sn_update, local_params. destruct (dget (sn_node m) st) as [ps|] eqn:E; [|reflexivity]. cbn [bind].
  assert (X : pick_all (sn_names m) ps = Err KeyError); [|now rewrite X]. specialize (HP ps eq_refl). clear E. induction (sn_names m) as [|a l IH]; [destruct HN|]. cbn [pick_all].
  destruct HN as [->|HN]; [now rewrite HP|]. destruct (dget a ps); auto. now rewrite IH.
Qed.
Lemma update_cases : forall src m (st : gst), well src m -> (exists ps : params, dget (sn_node m) st = Some ps /\ forall n, In n (sn_names m) -> dget n ps <> None) \/
  (exists n, (dget (sn_node m) st = None \/ In n (sn_names m) /\ exists ps : params, dget (sn_node m) st = Some ps /\ dget n ps = None) /\ sn_update src m st = (Err KeyError, m)).
Proof.
  intros src m st W. destruct (dget (sn_node m) st) as [ps|] eqn:E.
  - destruct (forallb (fun n => dmem n ps) (sn_names m)) eqn:F.
    + left. exists ps. split; auto. intros n Hn X. rewrite forallb_forall in F. specialize (F n Hn). apply dmem_dget in F. destruct F as [v F]. congruence.
    + right. assert (X : exists n, In n (sn_names m) /\ dget n ps = None).
      { clear - F. induction (sn_names m) as [|a l IH]; [discriminate|]. cbn [forallb] in F. destruct (dmem a ps) eqn:D.
        - destruct IH as (n & A & B); auto. exists n. split; auto. now right.
        - exists a. split; [now left|]. apply dmem_false in D. now apply dget_None. }
      destruct X as (n & A & B). exists n. split; [right; split; eauto|]. apply (update_missing src m st n); auto. intros ps' Hp. congruence.
  - right. exists ""%string. split; auto. unfold sn_update, local_params. rewrite E. reflexivity.
Qed.
(** Setting the same parameters again changes nothing. *)
Lemma update_again : forall src m st m', well src m -> sn_update src m st = (Ok tt, m') -> sn_update src m' st = (Ok tt, m').
Proof.
  intros src m st m' W H. destruct (update_cases src m st W) as [(ps & HP & HA)|(n & _ & E)]; [|congruence].
  destruct (update_ok src m st ps W HP HA) as (v & E & K & G). rewrite E in H. injection H as <-.
  assert (W' : well src (sn_with m v)) by (destruct W as (A & B & C & D); unfold well; cbn; auto).
  destruct (update_ok src (sn_with m v) st ps W' HP HA) as (v' & E' & K' & G'). rewrite E'. f_equal. unfold sn_with. cbn. f_equal. apply dict_ext; [congruence|rewrite K'; apply W|].
  intros k. rewrite G'. unfold seen. cbn [sn_names sn_values sn_with]. destruct (smem k (sn_names m)) eqn:S1; [|reflexivity]. rewrite G. unfold seen. now rewrite S1.
Qed.

(** ** History *)
(** Two moments of one wrapper's life between which only managed parameters of the source changed. *)
Definition alike (src : source) (m m' : sncosmo) : Prop :=
  sn_node m' = sn_node m /\ sn_setters m' = sn_setters m /\ sn_names m' = sn_names m /\ well src m /\ well src m' /\
  forall k, ~ In k (sn_names m) -> dget k (sn_values m') = dget k (sn_values m).
Lemma alike_refl : forall src m, well src m -> alike src m m.
Proof. intros. unfold alike. auto 10. Qed.
Lemma update_alike : forall src m m' st, alike src m m' ->
  (exists m1, sn_update src m st = (Ok tt, m1) /\ sn_update src m' st = (Ok tt, m1) /\ alike src m m1) \/
  (sn_update src m st = (Err KeyError, m) /\ sn_update src m' st = (Err KeyError, m')).
Proof.
  intros src m m' st (A1 & A2 & A3 & W & W' & A6). destruct (update_cases src m st W) as [(ps & HP & HA)|(n & HC & E)].
  - left. destruct (update_ok src m st ps W HP HA) as (v & E & K & G). rewrite <- A1 in HP.
    destruct (update_ok src m' st ps W' HP) as (v' & E' & K' & G'). { rewrite A3. exact HA. }
    assert (VV : v' = v). { apply dict_ext; [congruence|rewrite K'; apply W|]. intros k. rewrite G, G'. unfold seen. rewrite A3. destruct (smem k (sn_names m)) eqn:S1; auto. apply smem_false in S1. auto. }
    exists (sn_with m v). split; auto. split. { rewrite E'. f_equal. unfold sn_with. rewrite A1, A2, A3, VV. reflexivity. }
    unfold alike, sn_with. cbn [sn_node sn_setters sn_names sn_values]. split; auto. split; auto. split; auto. split; auto. split.
    { destruct W as (B & C & D & F). unfold well. cbn [sn_values sn_names]. auto. }
    intros k Hk. rewrite G. unfold seen. apply smem_false in Hk. now rewrite Hk.
  - right. split; auto. destruct HC as [HC|(HN & ps & HP & HM)].
    + unfold sn_update, local_params. rewrite A1, HC. reflexivity.
    + apply (update_missing src m' st n); [now rewrite A3|]. intros ps' Hp. rewrite A1 in Hp. congruence.
Qed.
Lemma compute_alike : forall fuel src x m m' ts ws st kw, alike src m m' ->
  fst (sn_compute fuel src x m' ts ws st kw) = fst (sn_compute fuel src x m ts ws st kw) /\
  alike src m (snd (sn_compute fuel src x m' ts ws st kw)).
Proof.
  intros [|fuel] src x m m' ts ws st kw H; [split; auto|]. cbn [sn_compute]. rewrite (proj1 H). destruct (local_params (sn_node m) st) as [ps|e]; [|split; auto].
  destruct (update_alike src m m' st H) as [(m1 & E & E' & A)|[E E']]; rewrite E, E'; [|split; auto].
  destruct (beyond _ _ ws); split; auto.
Qed.
Lemma ops_alike : forall src x ops m m', alike src m m' -> alike src m (fold_left (sn_do src x) ops m').
Proof.
  induction ops as [|o ops IH]; intros m m' H; auto. cbn [fold_left]. apply IH. destruct o as [draw|fuel ts ws st kw|ts st]; cbn [sn_do]; auto.
  - unfold sn_sample. assert (S1 : sn_state m' draw = sn_state m draw) by (unfold sn_state; now rewrite (proj1 H), (proj1 (proj2 H))). rewrite S1.
    destruct (update_alike src m m' (sn_state m draw) H) as [(m1 & E & E' & A)|[E E']]; rewrite E'; auto.
  - apply (compute_alike fuel src x m m' ts ws st kw H).
Qed.
(** Whatever was sampled and evaluated before, successfully or not, the flux for a state is the same: the values left in the source
    by other states are never seen. *)
Theorem C87_history : forall src x m ops fuel redshift rest obs ts ws sts kw, well src m ->
  let m' := fold_left (sn_do src x) ops m in
  fst (sn_compute fuel src x m' ts ws (hd [] sts) kw) = fst (sn_compute fuel src x m ts ws (hd [] sts) kw) /\
  evaluate_sed (PSed (sn_sed fuel src x redshift rest obs m')) ts ws sts kw = evaluate_sed (PSed (sn_sed fuel src x redshift rest obs m)) ts ws sts kw.
Proof.
  intros src x m ops fuel redshift rest obs ts ws sts kw W. cbv zeta. pose proof (ops_alike src x ops m m (alike_refl src m W)) as A. set (m' := fold_left _ ops m) in *.
  split; [apply (compute_alike fuel src x m m' ts ws (hd [] sts) kw A)|].
  assert (E1 : forall ts ws st kw, sed_extrapolated (sn_sed fuel src x redshift rest obs m') ts ws st kw = sed_extrapolated (sn_sed fuel src x redshift rest obs m) ts ws st kw).
  { intros. unfold sed_extrapolated, sn_sed. cbn [sd_min sd_max sd_compute sd_extrap]. destruct (list_min ws0); auto. cbn [bind]. destruct (list_max ws0); auto. cbn [bind]. cbv zeta.
    rewrite (proj1 (compute_alike fuel src x m m' ts0 ws0 st kw0 A)). destruct (_ && _)%bool; auto. now rewrite (proj1 (compute_alike fuel src x m m' ts0 _ st [] A)). }
  assert (E2 : forall st, sed_single (sn_sed fuel src x redshift rest obs m') ts ws st kw = sed_single (sn_sed fuel src x redshift rest obs m) ts ws st kw).
  { intros st. unfold sed_single. cbn [sd_node sn_sed]. rewrite (proj1 A). destruct (local_params (sn_node m) st) as [ps|]; auto. cbn [bind].
    change (rest_frame (sn_sed fuel src x redshift rest obs m') ps ts ws) with (rest_frame (sn_sed fuel src x redshift rest obs m) ps ts ws).
    destruct (rest_frame (sn_sed fuel src x redshift rest obs m) ps ts ws) as [[[rt rw] oz]|]; auto. cbn [bind]. now rewrite E1. }
  unfold evaluate_sed, eval_single. destruct sts as [|st [|st' sts]]; auto.
  - now rewrite E2.
  - f_equal. assert (X : forall (l : list gst) acc, fold_res (fun l st => bind (sed_single (sn_sed fuel src x redshift rest obs m') ts ws st kw) (fun y => Ok (l ++ [y]))) acc l =
      fold_res (fun l st => bind (sed_single (sn_sed fuel src x redshift rest obs m) ts ws st kw) (fun y => Ok (l ++ [y]))) acc l).
    { induction l as [|a l IH]; intros acc; auto. cbn [fold_res]. rewrite E2. destruct (sed_single _ ts ws a kw); auto. cbn [bind]. apply IH. }
    apply X.
Qed.

(** ** Fluxes *)
(** A source whose flux at each phase and wavelength within its bounds is [F values phase wavelength] (in erg/s/cm2/Angstrom). *)
Definition emits (src : source) (F : params -> R -> R -> R) : Prop := so_minwave src <= so_maxwave src /\
  forall values ph ws, (forall w, In w ws -> so_minwave src <= w <= so_maxwave src) -> so_flux src values ph ws = Ok (mat ph ws (F values)).
(** In nJy. *)
Definition in_njy (f w : R) : R := f * (w * w) * (10 ^ 22 / 299792458).
Lemma njy_factor : forall v w, u_flam * (u_aa * u_aa) / u_njy * (v * (w * w) / light_speed) = in_njy v w.
Proof.
  intros v w. unfold in_njy, u_flam, u_aa, u_njy, light_speed. assert (10 <> 0) by lra.
  replace (10 ^ 35) with (10 ^ 7 * 10 ^ 28) by ring. replace (10 ^ 22) with (10 ^ 7 * 10 ^ 7 * 10 ^ 8) by ring. replace (10 ^ 28) with (10 ^ 8 * 10 ^ 10 * 10 ^ 10) by ring.
  field.
Qed.
(** The rest-frame flux promised at a phase and wavelength: the source's, and beyond its wavelengths 0 or the extrapolation. *)
Definition wrapped (src : source) (x : option extrap) (f : R -> R -> R) (ph w : R) : R :=
  let outside edge := match x with None => 0 | Some e => extrap_value e edge (in_njy (f ph edge) edge) w end in
  if Rltb w (so_minwave src) then outside (so_minwave src) else if Rltb (so_maxwave src) w then outside (so_maxwave src) else in_njy (f ph w) w.
Lemma extrapolated_inside : forall s s' ts ws st kw lo hi, sd_min s st = Some lo -> sd_max s st = Some hi -> lo <= hi ->
  sd_min s' st = Some lo -> sd_max s' st = Some hi -> sd_extrap s' = sd_extrap s ->
  (forall ws' kw', (forall w, In w ws' -> lo <= w <= hi) -> sd_compute s ts ws' st kw' = sd_compute s' ts ws' st kw') ->
  sed_extrapolated s ts ws st kw = sed_extrapolated s' ts ws st kw.
Proof.
  intros s s' ts ws st kw lo hi M1 M2 HL M3 M4 HX HC. unfold sed_extrapolated. destruct (list_min ws) as [qmin|] eqn:E1; auto. destruct (list_max ws) as [qmax|] eqn:E2; auto. cbn [bind]. cbv zeta.
  rewrite M1, M2, M3, M4, HX. apply list_min_spec in E1. apply list_max_spec in E2. destruct (_ && _)%bool eqn:B.
  - apply andb_true_iff in B. destruct B as [B1 B2]. apply Rleb_true in B1, B2. apply HC. intros w Hw. destruct E1 as [_ E1]. destruct E2 as [_ E2]. specialize (E1 w Hw). specialize (E2 w Hw). lra.
  - rewrite HC; auto. intros w Hw. apply in_app_or in Hw. destruct Hw as [[<- | []]|Hw]; [lra|]. apply in_app_or in Hw. destruct Hw as [Hw|[<- | []]]; [|lra].
    clear - Hw. induction ws as [|a ws IH]; [destruct Hw|]. cbn [map mask_list] in Hw. destruct (_ && _)%bool eqn:E; auto. destruct Hw as [<- | Hw]; auto.
    apply andb_true_iff in E. destruct E as [E1 E2]. apply negb_true_iff in E1, E2. apply Rltb_false in E1, E2. lra.
Qed.
Lemma not_beyond : forall lo hi ws, (forall w, In w ws -> lo <= w <= hi) -> beyond lo hi ws = false.
Proof.
  intros lo hi ws H. unfold beyond. apply orb_false_iff. split; apply not_true_iff_false; intros X; apply existsb_exists in X; destruct X as (w & Hw & X); apply Rltb_true in X; specialize (H w Hw); lra.
Qed.
Definition rest_sed (src : source) (x : option extrap) (redshift : bool) (node : string) (f : R -> R -> R) (t0 : R) : sed :=
  mkSed node [] redshift (fun _ => Some (so_minwave src)) (fun _ => Some (so_maxwave src)) x (fun ts ws _ _ => Ok (mat ts ws (fun t w => in_njy (f (t - t0) w) w))) [] [].
Lemma compute_inside : forall fuel src x m F ts ws (st : gst) kw (ps : params) t0, well src m -> emits src F -> dget (sn_node m) st = Some ps ->
  (forall n, In n (sn_names m) -> dget n ps <> None) -> dget "t0" ps = Some (PNum t0) -> (forall w, In w ws -> so_minwave src <= w <= so_maxwave src) ->
  forall values, dkeys values = so_names src -> (forall k, dget k values = seen src m ps k) ->
  fst (sn_compute (S fuel) src x m ts ws st kw) = Ok (mat ts ws (fun t w => in_njy (F values (t - t0) w) w)).
Proof.
  intros fuel src x m F ts ws st kw ps t0 W [HL HF] HP HA HT HB values HK HV. cbn [sn_compute]. unfold local_params. rewrite HP.
  destruct (update_ok src m st ps W HP HA) as (v & E & K & G). rewrite E, not_beyond by auto. cbn [fst]. rewrite HT. cbn [sn_values sn_with].
  assert (VV : v = values) by (apply dict_ext; [congruence|rewrite K; apply W|intros k; rewrite G, HV; reflexivity]). subst v. rewrite HF by auto. cbn [bind].
  unfold mat. rewrite flam_map. f_equal. rewrite !map_map. apply map_ext. intros t. apply map_ext. intros w. apply njy_factor.
Qed.
(** The flux of a wrapped model for a state: the source's flux for the state's parameter values at the rest-frame phase and
    wavelength, in nJy, times 1 + z; the depth of Python's stack does not matter. *)
Theorem C87_flux : forall fuel src x rs m F (st : gst) (ps : params) kw t0 z ts ws, well src m -> emits src F -> dget (sn_node m) st = Some ps ->
  (forall n, In n (sn_names m) -> dget n ps <> None) -> dget "t0" ps = Some (PNum t0) -> redshifted rs ps z -> (forall e, x = Some e -> extrap_made e) -> ws <> [] ->
  exists values, dkeys values = so_names src /\ (forall k, dget k values = if smem k (sn_names m) then dget k ps else dget k (sn_values m)) /\
  evaluate_sed (PSed (sn_sed (S fuel) src x rs [] [] m)) ts ws [st] kw =
  Ok (SOne (mat ts ws (fun t w => (1 + z) * wrapped src x (F values) ((t - t0) / (1 + z)) (w / (1 + z))))).
Proof.
  intros fuel src x rs m F st ps kw t0 z ts ws W HF HP HA HT [Hz HR] HX NW. destruct (update_ok src m st ps W HP HA) as (values & _ & HK & HV).
  exists values. split; auto. split; auto. set (s := sn_sed (S fuel) src x rs [] [] m). set (s' := rest_sed src x rs (sn_node m) (F values) t0). pose proof (proj1 HF) as HL.
  assert (IF : in_force s ps z t0). { unfold in_force, s. simpl. destruct HR as [[A B]|[A B]]; [left|right]; auto. }
  assert (EQ : evaluate_sed (PSed s) ts ws [st] kw = evaluate_sed (PSed s') ts ws [st] kw).
  { unfold evaluate_sed, eval_single, sed_single. f_equal. change (sd_node s') with (sn_node m). change (sd_node s) with (sn_node m). unfold local_params. rewrite HP. cbn [bind].
    change (rest_frame s' ps ts ws) with (rest_frame s ps ts ws). destruct (rest_frame s ps ts ws) as [[[rt rw] oz]|]; auto. cbn [bind].
    rewrite (extrapolated_inside s s' rt rw st kw (so_minwave src) (so_maxwave src)); auto. intros ws' kw' HB. unfold s, s', sn_sed, rest_sed. cbn [sd_compute].
    apply (compute_inside fuel src x m F rt ws' st kw' ps t0); auto. }
  rewrite EQ. pose proof (C42_pipeline s' [] ts ws st kw ps z t0 (fun t w => in_njy (F values (t - t0) w) w) (fun _ _ _ v => v)) as P. cbn [fold_left] in P. rewrite P; auto.
  - do 2 f_equal. apply mat_ext. intros t w _ _. unfold expected_flux. cbn [filter fold_left]. f_equal. unfold extended, wrapped, s', rest_sed. cbn [sd_min sd_max sd_extrap].
    replace (t0 + (t - t0) / (1 + z) - t0) with ((t - t0) / (1 + z)) by ring. reflexivity.
  - intros t' w' kw' _. reflexivity.
  - intros lo hi H1 H2. cbn in H1, H2. congruence.
  - intros e [].
Qed.
(** [compute_sed] called directly also with wavelengths beyond the source's: it extrapolates, without running out of stack. *)
Theorem C87_compute_beyond : forall fuel src x m F (st : gst) (ps : params) kw t0 ts ws, well src m -> emits src F -> dget (sn_node m) st = Some ps ->
  (forall n, In n (sn_names m) -> dget n ps <> None) -> dget "t0" ps = Some (PNum t0) -> (forall e, x = Some e -> extrap_made e) -> ws <> [] ->
  exists values, dkeys values = so_names src /\ (forall k, dget k values = if smem k (sn_names m) then dget k ps else dget k (sn_values m)) /\
  fst (sn_compute (S (S fuel)) src x m ts ws st kw) = Ok (mat ts ws (fun t w => wrapped src x (F values) (t - t0) w)).
Proof.
  intros fuel src x m F st ps kw t0 ts ws W HF HP HA HT HX NW. destruct (update_ok src m st ps W HP HA) as (values & E & HK & HV).
  exists values. split; auto. split; auto. pose proof (proj1 HF) as HL. destruct (beyond (so_minwave src) (so_maxwave src) ws) eqn:B.
  - cbn [sn_compute]. unfold local_params. rewrite HP, E, B. cbn [fst]. set (m' := sn_with m values). set (s' := rest_sed src x true (sn_node m) (F values) t0).
    assert (W' : well src m') by (destruct W as (W1 & W2 & W3 & W4); unfold well, m'; cbn; auto).
    rewrite (extrapolated_inside _ s' ts ws st kw (so_minwave src) (so_maxwave src)); auto.
    + rewrite (C43_values s' ts ws st kw (fun t w => in_njy (F values (t - t0) w) w)); auto.
      * intros t' w' kw' _. reflexivity.
      * intros lo hi H1 H2. cbn in H1, H2. congruence.
    + intros ws' kw' HB. cbn [sd_compute]. unfold s', rest_sed. cbn [sd_compute].
      change (fst (sn_compute (S fuel) src x m' ts ws' st kw') = Ok (mat ts ws' (fun t w => in_njy (F values (t - t0) w) w))).
      apply (compute_inside fuel src x m' F ts ws' st kw' ps t0); auto. intros k. rewrite HV. unfold seen, m'. cbn [sn_names sn_values sn_with]. destruct (smem k (sn_names m)) eqn:S1; auto. rewrite HV. unfold seen. now rewrite S1.
  - assert (IN : forall w, In w ws -> so_minwave src <= w <= so_maxwave src).
    { intros w Hw. unfold beyond in B. apply orb_false_iff in B. destruct B as [B1 B2]. split; apply Rnot_lt_le; intros X.
      - apply not_true_iff_false in B1. apply B1, existsb_exists. exists w. split; auto. now apply Rltb_true.
      - apply not_true_iff_false in B2. apply B2, existsb_exists. exists w. split; auto. now apply Rltb_true. }
    rewrite (compute_inside (S fuel) src x m F ts ws st kw ps t0 W HF HP HA HT IN values HK HV). f_equal. apply mat_ext. intros t w _ Hw. specialize (IN w Hw). unfold wrapped.
    replace (Rltb w (so_minwave src)) with false by (symmetry; apply Rltb_false; lra). replace (Rltb (so_maxwave src) w) with false by (symmetry; apply Rltb_false; lra). reflexivity.
Qed.

(** ** Sampling and setting *)
Definition settable (m : sncosmo) : Prop := NoDup (dkeys (sn_setters m)) /\ forall n, In n (sn_names m) -> In n (dkeys (sn_setters m)).
Lemma state_get : forall m draw k, dget k (map (fun kv => (fst kv, match snd kv with Const v => v | Drawn i => draw i end)) (sn_setters m)) =
  option_map (fun s => match s with Const v => v | Drawn i => draw i end) (dget k (sn_setters m)).
Proof. intros m draw k. rewrite (dget_map _ _ (fun s => match s with Const v => v | Drawn i => draw i end)). now destruct (dget k (sn_setters m)). Qed.
(** Sampling always succeeds and afterwards the source holds exactly the sampled values of the managed parameters. *)
Theorem C87_sample : forall src m draw, well src m -> settable m ->
  exists m' ps, sn_sample src m draw = (Ok (sn_state m draw), m') /\ alike src m m' /\ dget (sn_node m) (sn_state m draw) = Some ps /\
    (forall k, dget k ps = option_map (fun s => match s with Const v => v | Drawn i => draw i end) (dget k (sn_setters m))) /\
    (forall n, In n (sn_names m) -> dget n ps <> None /\ dget n (sn_values m') = dget n ps).
Proof.
  intros src m draw W [N S1]. set (ps := map (fun kv => (fst kv, match snd kv with Const v => v | Drawn i => draw i end)) (sn_setters m)).
  assert (HP : dget (sn_node m) (sn_state m draw) = Some ps) by (unfold sn_state; cbn [dget]; now rewrite String.eqb_refl).
  assert (HA : forall n, In n (sn_names m) -> dget n ps <> None). { intros n Hn. unfold ps. rewrite state_get. apply S1, dget_keys in Hn. destruct (dget n (sn_setters m)); [discriminate|congruence]. }
  destruct (update_ok src m _ ps W HP HA) as (v & E & K & G). exists (sn_with m v), ps. unfold sn_sample. rewrite E. split; auto.
  destruct (update_alike src m m (sn_state m draw) (alike_refl src m W)) as [(m1 & E1 & _ & A)|[E1 _]]; [|congruence]. rewrite E in E1. injection E1 as <-.
  split; auto. split; auto. split; [apply state_get|]. intros n Hn. split; auto. cbn [sn_values sn_with]. rewrite G. unfold seen. apply smem_In in Hn. now rewrite Hn.
Qed.
Theorem C87_made_settable : forall src attrs node defaults kwargs m, NoDup (dkeys kwargs) -> sn_make src attrs node defaults kwargs = Ok m -> settable m /\
  (forall k s, dget k kwargs = Some s -> dget k (sn_setters m) = Some s) /\
  (forall k, In k base_names -> dget k kwargs = None -> dget k (sn_setters m) = Some (Const PNone)).
Proof.
  intros src attrs node defaults kwargs m HK H. unfold sn_make in H. destruct (fold_res _ _ kwargs) as [d|] eqn:EF; [|discriminate]. cbn [bind] in H. injection H as <-.
  assert (BD : forall k, dget k (base_setters kwargs) = if smem k base_names then Some (match dget k kwargs with Some s => s | None => Const PNone end) else None).
  { intros k. unfold base_setters. induction base_names as [|b l IH]; auto. cbn [map dget]. unfold smem. cbn [existsb]. destruct (String.eqb_spec k b) as [->|N]; auto. }
  assert (NB : NoDup (dkeys (base_setters kwargs))). { unfold base_setters, dkeys. rewrite map_map. cbn. repeat constructor; simpl; intuition discriminate. }
  assert (G : forall (l d0 d : dict setter), NoDup (dkeys l) -> NoDup (dkeys d0) -> fold_res (fun d kv => if dmem (fst kv) d then Ok d else if smem (fst kv) attrs then Err KeyError else Ok (dset (fst kv) (snd kv) d)) d0 l = Ok d ->
    NoDup (dkeys d) /\ forall k, dget k d = match dget k d0 with Some s => Some s | None => dget k l end).
  { clear. induction l as [|[k v] l IH]; intros d0 d NL N0 H; cbn [fold_res] in H; [injection H as <-; split; auto; intros k; now destruct (dget k d0)|].
    unfold dkeys in NL. cbn [map fst] in NL. inversion NL as [|? ? N1 N2]; subst. cbn [fst snd] in H. destruct (dmem k d0) eqn:D.
    - destruct (IH d0 d N2 N0 H) as [A B]. split; auto. intros q. rewrite B. cbn [dget]. destruct (dget q d0) eqn:Q; auto. destruct (String.eqb_spec q k) as [->|]; auto. apply dmem_dget in D. destruct D. congruence.
    - destruct (smem k attrs); [discriminate|]. destruct (IH (dset k v d0) d N2 (NoDup_dset _ _ _ _ N0) H) as [A B]. split; auto. intros q. rewrite B. cbn [dget]. destruct (String.eqb_spec q k) as [->|N].
      + rewrite dget_dset_same. apply dmem_false in D. apply dget_None in D. now rewrite D.
      + now rewrite dget_dset_other by auto. }
  destruct (G kwargs _ d HK NB EF) as [ND GD]. cbn [sn_setters sn_names].
  assert (KW : forall k s, dget k kwargs = Some s -> dget k d = Some s). { intros k s Hk. rewrite GD, BD, Hk. now destruct (smem k base_names). }
  split; [|split; auto].
  - split; auto. cbn [sn_setters sn_names]. intros n Hn. apply filter_In in Hn. destruct Hn as [Hn _]. apply dget_keys in Hn. destruct (dget n kwargs) as [s|] eqn:E; [|congruence]. apply dget_keys. rewrite (KW n s E). discriminate.
  - intros k Hk HN. rewrite GD, BD, HN. apply smem_In in Hk. now rewrite Hk.
Qed.
Lemma set_steps : forall src attrs kvs m, (forall k, In k (dkeys kvs) -> dmem k (sn_setters m) = true \/ smem k attrs = false) -> NoDup (dkeys kvs) ->
  NoDup (dkeys (sn_setters m)) -> NoDup (sn_names m) ->
  exists m', sn_set src attrs m kvs = (let '(r, values) := source_set src kvs (sn_values m) in (r, sn_with m' values)) /\
    sn_node m' = sn_node m /\ NoDup (dkeys (sn_setters m')) /\ NoDup (sn_names m') /\
    (forall k, dget k (sn_setters m') = match dget k kvs with Some v => Some (Const v) | None => dget k (sn_setters m) end) /\
    (forall n, In n (sn_names m') <-> In n (sn_names m) \/ In n (dkeys kvs)).
Proof.
  intros src attrs kvs m HK HN HS HM. unfold sn_set.
  set (step := fun (acc : result unit * sncosmo) kv => match fst acc with Err _ => acc | Ok _ => let m := snd acc in
        if (negb (dmem (fst kv) (sn_setters m)) && smem (fst kv) attrs)%bool then (Err KeyError, m)
        else (Ok tt, mkSn (sn_node m) (dset (fst kv) (Const (snd kv)) (sn_setters m)) (if smem (fst kv) (sn_names m) then sn_names m else sn_names m ++ [fst kv]) (sn_values m)) end).
  assert (L : exists m', fold_left step kvs (Ok tt, m) = (Ok tt, m') /\ sn_values m' = sn_values m /\ sn_node m' = sn_node m /\ NoDup (dkeys (sn_setters m')) /\ NoDup (sn_names m') /\
    (forall k, dget k (sn_setters m') = match dget k kvs with Some v => Some (Const v) | None => dget k (sn_setters m) end) /\
    (forall n, In n (sn_names m') <-> In n (sn_names m) \/ In n (dkeys kvs))).
  { clear src. revert m HK HN HS HM. induction kvs as [|[k v] kvs IH]; intros m HK HN HS HM; [exists m; simpl; intuition|]. cbn [fold_left].
    unfold dkeys in HN. cbn [map fst] in HN. inversion HN as [|? ? N1 N2]; subst. unfold step at 2. cbn [fst snd].
    assert (C : (negb (dmem k (sn_setters m)) && smem k attrs)%bool = false). { destruct (HK k (or_introl eq_refl)) as [-> | ->]; [reflexivity|apply andb_false_r]. }
    rewrite C. set (m1 := mkSn _ _ _ _). destruct (IH m1) as (m' & E & V & A & B & D & F & G); auto.
    - intros q Hq. destruct (HK q (or_intror Hq)) as [X|X]; auto. left. apply dmem_true. apply dmem_true in X. cbn [m1 sn_setters]. apply In_dkeys_dset. auto.
    - now apply NoDup_dset.
    - cbn [m1 sn_names]. destruct (smem k (sn_names m)) eqn:S1; auto. apply NoDup_app_single; auto. now apply smem_false.
    - exists m'. split; auto. split; [exact V|]. split; [exact A|]. split; auto. split; auto. split.
      + intros q. rewrite F. cbn [m1 sn_setters dget]. destruct (String.eqb_spec q k) as [->|N].
        * assert (X : dget k kvs = None) by now apply dget_None. now rewrite X, dget_dset_same.
        * destruct (dget q kvs); auto. now apply dget_dset_other.
      + intros n. rewrite G. unfold dkeys. cbn [m1 sn_names map fst]. fold (dkeys kvs). destruct (smem k (sn_names m)) eqn:S1; [apply smem_In in S1|rewrite in_app_iff]; simpl; intuition; subst; auto. }
  destruct L as (m' & E & V & A & B & D & F & G). rewrite E. exists m'. rewrite V. split; auto.
Qed.
(** Setting parameters the source has: from then on every sampled state carries these values, the source is evaluated with them, and all
    other parameters are untouched. *)
Theorem C87_set : forall src attrs m kvs, well src m -> settable m -> NoDup (dkeys kvs) -> (forall k, In k (dkeys kvs) -> In k (so_names src)) ->
  (forall k, In k (dkeys kvs) -> dmem k (sn_setters m) = true \/ smem k attrs = false) ->
  exists m', sn_set src attrs m kvs = (Ok tt, m') /\ well src m' /\ settable m' /\ sn_node m' = sn_node m /\
    (forall k, dget k (sn_setters m') = match dget k kvs with Some v => Some (Const v) | None => dget k (sn_setters m) end) /\
    (forall k, dget k (sn_values m') = match dget k kvs with Some v => Some v | None => dget k (sn_values m) end) /\
    (forall n, In n (sn_names m') <-> In n (sn_names m) \/ In n (dkeys kvs)).
Proof.
  intros src attrs m kvs W [S1 S2] HN HK HC. pose proof W as (W1 & W2 & W3 & W4). destruct (set_steps src attrs kvs m HC HN S1 W4) as (m' & E & A & B & D & F & G).
  destruct (source_set_spec src kvs (sn_values m) HK HN W1) as (v & EV & KV & GV). rewrite EV in E. exists (sn_with m' v). split; auto. unfold well, settable. cbn [sn_with sn_values sn_names sn_node sn_setters].
  split; [|split; [split; auto|split; [exact A|split; [exact F|split; [exact GV|exact G]]]]].
  - split; auto. split; auto. split; auto. intros n Hn. apply G in Hn. destruct Hn; auto.
  - intros n Hn. apply dget_keys. rewrite F. apply G in Hn. destruct (dget n kvs) eqn:Q; [discriminate|]. destruct Hn as [Hn|Hn]; [now apply dget_keys, S2|]. apply dget_None in Q. contradiction.
Qed.
(** Finding: a state sampled before a new parameter is set can no longer be evaluated. *)
Theorem C87_set_old_state_refuted : forall src attrs m k v draw fuel x ts ws kw, well src m -> settable m -> In k (so_names src) ->
  dget k (sn_setters m) = None -> smem k attrs = false ->
  exists m', sn_set src attrs m [(k, v)] = (Ok tt, m') /\ fst (sn_compute (S fuel) src x m' ts ws (sn_state m draw) kw) = Err KeyError.
Proof.
  intros src attrs m k v draw fuel x ts ws kw W S1 HK HN HA. destruct (C87_set src attrs m [(k, v)]) as (m' & E & W' & _ & A & _ & _ & G); auto.
  - simpl. constructor; [tauto|constructor].
  - intros q [<- | []]. auto.
  - intros q [<- | []]. auto.
  - exists m'. split; auto. cbn [sn_compute]. rewrite A. destruct (local_params (sn_node m) (sn_state m draw)) as [ps|e] eqn:EP.
    + rewrite (update_missing src m' _ k); auto; [apply G; right; now left|]. intros ps'. rewrite A. unfold sn_state. cbn [dget]. rewrite String.eqb_refl. intros Q. injection Q as <-. rewrite state_get, HN. reflexivity.
    + unfold local_params, sn_state in EP. cbn [dget] in EP. rewrite String.eqb_refl in EP. discriminate.
Qed.
(** Finding: setting a name the source does not have raises KeyError but leaves the name behind: the model can never be sampled again. *)
Theorem C87_set_unknown_refuted : forall src attrs m k v, well src m -> settable m -> ~ In k (so_names src) -> (dmem k (sn_setters m) = true \/ smem k attrs = false) ->
  exists m', sn_set src attrs m [(k, v)] = (Err KeyError, m') /\ forall draw, fst (sn_sample src m' draw) = Err KeyError.
Proof.
  intros src attrs m k v W [S1 S2] HK HC. destruct (set_steps src attrs [(k, v)] m) as (m' & E & A & B & D & F & G); auto; try apply W.
  - intros q [<- | []]. auto.
  - simpl. constructor; [tauto|constructor].
  - cbn [source_set] in E. pose proof HK as HK'. apply smem_false in HK'. rewrite HK' in E. exists (sn_with m' (sn_values m)). split; auto. intros draw. unfold sn_sample.
    set (M := sn_with m' (sn_values m)). assert (IK : In k (sn_names M)) by (apply G; right; now left).
    unfold sn_update, local_params, sn_state. cbn [dget]. rewrite String.eqb_refl. cbn [bind].
    set (ps := map _ (sn_setters M)). destruct (pick_all (sn_names M) ps) as [kvs|e] eqn:EP.
    + destruct (pick_all_spec _ _ _ EP) as [K1 _]. rewrite <- K1 in IK. assert (X : forall l vals, In k (dkeys l) -> exists vv, source_set src l vals = (Err KeyError, vv)).
      { clear - HK. induction l as [|[n u] l IH]; intros vals H; [destruct H|]. cbn [source_set]. destruct (smem n (so_names src)) eqn:S1; eauto. apply IH. destruct H as [H|H]; auto. cbn in H. subst n. apply smem_In in S1. contradiction. }
      destruct (X kvs (sn_values M) IK) as [vv ->]. reflexivity.
    + assert (Y : forall l, pick_all l ps = Err e -> e = KeyError). { clear. induction l as [|n l IH]; cbn [pick_all]; [discriminate|]. destruct (dget n ps); [|congruence]. destruct (pick_all l ps); cbn [bind]; [discriminate|auto]. }
      cbn [fst]. f_equal. eauto.
Qed.

(** ** The time window *)
Theorem C87_mask : forall src m ts (st : gst) z t0, value_or_zero (sn_node m) st "redshift" = Ok z -> value_or_zero (sn_node m) st "t0" = Ok t0 -> -1 < z ->
  exists mask, sn_mask src m ts (Some st) = Ok mask /\ length mask = length ts /\
  forall i t, nth_error ts i = Some t -> exists b, nth_error mask i = Some b /\ (b = true <-> so_minphase src < (t - t0) / (1 + z) < so_maxphase src).
Proof.
  intros src m ts st z t0 HZ HT Hz. unfold sn_mask. rewrite HZ, HT. cbn [bind]. eexists. split; [reflexivity|]. split; [apply map_length|]. intros i t Hi. rewrite nth_error_map, Hi. cbn [option_map].
  eexists. split; [reflexivity|]. rewrite andb_true_iff, !Rltb_true. assert (P : 0 < 1 + z) by lra.
  assert (EQ : t - t0 = (t - t0) / (1 + z) * (1 + z)) by (field; lra). set (q := (t - t0) / (1 + z)) in *. split; intros [A B]; split.
  - apply (Rmult_lt_reg_r (1 + z)); lra.
  - apply (Rmult_lt_reg_r (1 + z)); lra.
  - assert (so_minphase src * (1 + z) < q * (1 + z)) by (apply Rmult_lt_compat_r; lra). lra.
  - assert (q * (1 + z) < so_maxphase src * (1 + z)) by (apply Rmult_lt_compat_r; lra). lra.
Qed.
Theorem C87_mask_no_state : forall src m ts, sn_mask src m ts None = Err ValueError.
Proof. reflexivity. Qed.
(** Finding: without a t0 the window is computed (as if t0 were 0) but the flux is not: TypeError. *)
Theorem C87_no_epoch_refuted : forall fuel src x m F ts ws (st : gst) (ps : params) kw, well src m -> emits src F -> dget (sn_node m) st = Some ps ->
  (forall n, In n (sn_names m) -> dget n ps <> None) -> dget "t0" ps = Some PNone -> dget "redshift" ps = Some PNone -> (forall w, In w ws -> so_minwave src <= w <= so_maxwave src) ->
  fst (sn_compute (S fuel) src x m ts ws st kw) = Err TypeError /\ exists mask, sn_mask src m ts (Some st) = Ok mask.
Proof.
  intros fuel src x m F ts ws st ps kw W HF HP HA HT HZ HB. destruct (update_ok src m st ps W HP HA) as (v & E & _). split.
  - cbn [sn_compute]. unfold local_params. rewrite HP, E, not_beyond by auto. now rewrite HT.
  - unfold sn_mask, value_or_zero, get_param. rewrite HP, HT, HZ. cbn [bind]. eauto.
Qed.
(** A case: a source with parameters amplitude (default 1) and x1 (default 0), of flux amplitude * (1 + x1) * phase; x1 is drawn. *)
Definition toy : source := mkSource ["amplitude"; "x1"]%string
  (fun vals ph ws => Ok (mat ph ws (fun p w => match num_param "amplitude" vals, num_param "x1" vals with Some a, Some x => a * (1 + x) * p | _, _ => 0 end))) 1000 9000 (-10) 50.
Example C87_case : exists m, sn_make toy ["source"%string] "sn" [("amplitude", PNum 1); ("x1", PNum 0)]%string [("x1", Drawn 0); ("t0", Const (PNum 100)); ("redshift", Const (PNum 0))]%string = Ok m /\
  well toy m /\ settable m /\ sn_names m = ["x1"%string] /\
  fst (sn_compute 1 toy None m [105] [5000] (sn_state m (fun _ => PNum 2)) []) = Ok [[in_njy (1 * (1 + 2) * (105 - 100)) 5000]].
Proof.
  eexists. split; [reflexivity|].
  match goal with |- well _ ?M /\ _ => set (m := M) end.
  assert (W : well toy m). { unfold well, m. cbn. split; [reflexivity|]. split; [repeat constructor; simpl; intuition discriminate|]. split; [tauto|]. repeat constructor; simpl; tauto. }
  assert (S1 : settable m). { unfold settable, m. cbn. split; [repeat constructor; simpl; intuition discriminate|]. intros n [<- | []]. simpl. tauto. }
  split; auto. split; auto. split; [reflexivity|].
  assert (EM : emits toy (fun vals p w => match num_param "amplitude" vals, num_param "x1" vals with Some a, Some x => a * (1 + x) * p | _, _ => 0 end)) by (split; [cbn; lra|reflexivity]).
  rewrite (compute_inside 0 toy None m _ [105] [5000] (sn_state m (fun _ => PNum 2)) []
    [("ra", PNone); ("dec", PNone); ("redshift", PNum 0); ("t0", PNum 100); ("distance", PNone); ("x1", PNum 2)]%string 100 W EM) with (values := [("amplitude", PNum 1); ("x1", PNum 2)]%string); auto.
  - intros n [<- | []]. discriminate.
  - intros w [<- | []]. cbn. lra.
  - intros k. unfold seen. cbn. destruct (String.eqb_spec k "amplitude") as [->|]; [reflexivity|]. destruct (String.eqb_spec k "x1") as [->|]; reflexivity.
Qed.
