(** Property C88: wrapped redback models. *)
From Coq Require Import Reals String List Bool Arith ZArith Lia Lra.
From Verif Require Import Base BaseFacts RealBase ObsTableModel SedModel SedProps SedPipeline NoiseModel TemplateModel SimpleModels Salt2Model Salt2Props SncosmoModel SncosmoProps.
Import ListNotations.
Open Scope R_scope.

(** ** Construction *)
Lemma base_get : forall kwargs k, dget k (base_setters kwargs) = if smem k base_names then Some (match dget k kwargs with Some s => s | None => Const PNone end) else None.
Proof.
  intros kwargs k. unfold base_setters. induction base_names as [|b l IH]; auto. cbn [map dget]. unfold smem. cbn [existsb]. destruct (String.eqb_spec k b) as [->|N]; auto.
Qed.
Lemma keep_first_get : forall (pr d : dict setter) k, dget k (fold_left (fun d kv => if dmem (fst kv) d then d else dset (fst kv) (snd kv) d) pr d) =
  match dget k d with Some s => Some s | None => dget k pr end.
Proof.
  induction pr as [|[n s] pr IH]; intros d k; cbn [fold_left dget fst snd]; [now destruct (dget k d)|]. rewrite IH. destruct (dmem n d) eqn:D.
  - destruct (dget k d) eqn:E; auto. destruct (String.eqb_spec k n) as [->|]; auto. apply dmem_dget in D. destruct D. congruence.
  - destruct (String.eqb_spec k n) as [->|N]; [|now rewrite dget_dset_other by auto]. rewrite dget_dset_same. apply dmem_false in D. apply dget_None in D. now rewrite D.
Qed.
Lemma keep_first_nodup : forall (pr d : dict setter), NoDup (dkeys d) -> NoDup (dkeys (fold_left (fun d kv => if dmem (fst kv) d then d else dset (fst kv) (snd kv) d) pr d)).
Proof. induction pr as [|[n s] pr IH]; intros d H; auto. cbn [fold_left]. apply IH. destruct (dmem _ d); auto. now apply NoDup_dset. Qed.
(** A parameter given both in the dictionary and as a keyword argument is refused. *)
Theorem C88_conflict : forall attrs node parameters kwargs priors k, In k (dkeys parameters) -> In k (dkeys kwargs) -> rd_make attrs node parameters kwargs priors = Err ValueError.
Proof.
  intros attrs node parameters kwargs priors k H1 H2. unfold rd_make. replace (existsb _ (dkeys parameters)) with true; auto. symmetry. apply existsb_exists. exists k. split; auto. now apply dmem_true.
Qed.
(** Otherwise the source gets the parameters of the dictionary and of the priors, and no others; each is set from the dictionary if it is
    there, else from the prior. *)
Theorem C88_make : forall attrs node parameters kwargs priors m, NoDup (dkeys parameters) -> rd_make attrs node parameters kwargs priors = Ok m ->
  let pr := match priors with Some d => d | None => [] end in
  rd_node m = node /\ NoDup (rd_names m) /\ (forall n, In n (rd_names m) <-> In n (dkeys parameters) \/ In n (dkeys pr)) /\
  forall k, dget k (rd_setters m) = match dget k parameters with Some s => Some s | None => match dget k pr with Some s => Some s | None =>
    if smem k base_names then Some (match dget k kwargs with Some s => s | None => Const PNone end) else None end end.
Proof.
  intros attrs node parameters kwargs priors m HN H. cbv zeta. unfold rd_make in H. destruct (existsb _ _); [discriminate|].
  set (all := match priors with None => parameters | Some pr => fold_left (fun d kv => if dmem (fst kv) d then d else dset (fst kv) (snd kv) d) pr parameters end) in *.
  set (pr := match priors with Some d => d | None => [] end).
  assert (GA : forall k, dget k all = match dget k parameters with Some s => Some s | None => dget k pr end).
  { intros k. unfold all, pr. destruct priors; [apply keep_first_get|]. now destruct (dget k parameters). }
  assert (NA : NoDup (dkeys all)). { unfold all. destruct priors; auto. now apply keep_first_nodup. }
  destruct (fold_res _ _ all) as [d|] eqn:EF; [|discriminate]. cbn [bind] in H. injection H as <-. cbn [rd_node rd_names rd_setters]. split; auto. split; auto. split.
  - intros n. rewrite <- !dget_keys, GA. destruct (dget n parameters); [split; [left; discriminate|discriminate]|]. tauto.
  - assert (G : forall (l d0 d : dict setter), NoDup (dkeys l) -> fold_res (fun d kv => if dmem (fst kv) d then Ok (dset (fst kv) (snd kv) d) else if smem (fst kv) attrs then Err KeyError else Ok (dset (fst kv) (snd kv) d)) d0 l = Ok d ->
      forall k, dget k d = match dget k l with Some s => Some s | None => dget k d0 end).
    { clear. induction l as [|[k v] l IH]; intros d0 d NL H q; cbn [fold_res fst snd] in H; [injection H as <-; auto|].
      unfold dkeys in NL. cbn [map fst] in NL. inversion NL as [|? ? N1 N2]; subst.
      assert (H' : fold_res (fun d kv => if dmem (fst kv) d then Ok (dset (fst kv) (snd kv) d) else if smem (fst kv) attrs then Err KeyError else Ok (dset (fst kv) (snd kv) d)) (dset k v d0) l = Ok d).
      { destruct (dmem k d0); [exact H|]. destruct (smem k attrs); [discriminate|exact H]. }
      rewrite (IH _ _ N2 H'). cbn [dget]. destruct (String.eqb_spec q k) as [->|N].
      - assert (X : dget k l = None) by now apply dget_None. now rewrite X, dget_dset_same.
      - destruct (dget q l); auto. now apply dget_dset_other. }
    intros k. rewrite (G all _ d NA EF), GA, base_get. destruct (dget k parameters); auto.
Qed.

(** ** Fluxes *)
(** A source which for the arguments [args] emits [F] (erg/s/cm2/Angstrom) between [lo] and [hi], at the times after t0 it is called
    with. *)
Definition rb_emits (src : rbfun) (args : params) (lo hi : R) (F : R -> R -> R) : Prop :=
  forall ts, exists fl, src ts args = Ok (mkRb lo hi fl) /\ forall ws, (forall w, In w ws -> lo <= w <= hi) -> fl ts ws = Ok (mat ts ws F).
(** The t0 in use: that of the state, 0 without one. *)
Definition rb_epoch (ps : params) (t0 : R) : Prop := dget "t0" ps = Some (PNum t0) \/ (dget "t0" ps = None \/ dget "t0" ps = Some PNone) /\ t0 = 0.
Lemma rb_epoch_eq : forall ps t0, rb_epoch ps t0 -> match dget "t0" ps with None | Some PNone => Ok 0 | Some (PNum t) => Ok t | Some (PStr _) => Err TypeError end = Ok t0.
Proof. intros ps t0 [-> | [[-> | ->] ->]]; reflexivity. Qed.
Lemma rd_inside : forall fuel src x m ts ws (st : gst) kw (ps : params) args t0 lo hi F, dget (rd_node m) st = Some ps -> pick_all (rd_names m) ps = Ok args -> rb_epoch ps t0 ->
  rb_emits src args lo hi F -> (forall w, In w ws -> lo <= w <= hi) -> rd_compute (S fuel) src x m ts ws st kw = Ok (mat ts ws (fun t w => in_njy (F (t - t0) w) w)).
Proof.
  intros fuel src x m ts ws st kw ps args t0 lo hi F HP HA HE HF HB. cbn [rd_compute]. unfold local_params. rewrite HP. cbn [bind]. rewrite HA. cbn [bind]. rewrite (rb_epoch_eq ps t0 HE). cbn [bind]. cbv zeta.
  destruct (HF (map (fun t => t - t0) ts)) as (fl & -> & EF). cbn [bind rb_minwave rb_maxwave]. rewrite not_beyond by auto. cbn [rb_flux]. rewrite EF by auto. cbn [bind]. unfold mat. rewrite flam_map.
  f_equal. rewrite !map_map. apply map_ext. intros t. apply map_ext. intros w. apply njy_factor.
Qed.
(** The flux within the source's wavelengths: what redback returns for exactly the state's values of the managed parameters, at times
    since t0, in nJy.  No redshift is applied by the wrapper, whatever the node's redshift: redback has done so. *)
Theorem C88_flux : forall fuel src x m ts ws (st : gst) kw (ps : params) args t0 lo hi F, dget (rd_node m) st = Some ps -> pick_all (rd_names m) ps = Ok args -> rb_epoch ps t0 ->
  rb_emits src args lo hi F -> 0 <= lo -> ws <> [] -> (forall w, In w ws -> lo <= w <= hi) ->
  evaluate_sed (PSed (rd_sed (S fuel) src x [] [] m)) ts ws [st] kw = Ok (SOne (mat ts ws (fun t w => in_njy (F (t - t0) w) w))).
Proof.
  intros fuel src x m ts ws st kw ps args t0 lo hi F HP HA HE HF HL NW HB. unfold evaluate_sed, eval_single, sed_single. change (sd_node (rd_sed (S fuel) src x [] [] m)) with (rd_node m). unfold local_params. rewrite HP.
  cbn [bind]. unfold rest_frame. change (sd_redshift (rd_sed (S fuel) src x [] [] m)) with false. cbv iota. cbn [bind].
  assert (EX : sed_extrapolated (rd_sed (S fuel) src x [] [] m) ts ws st kw = rd_compute (S fuel) src x m ts ws st kw).
  { unfold sed_extrapolated. destruct (list_min ws) as [a|] eqn:E1; [|destruct ws; [congruence|discriminate]]. destruct (list_max ws) as [b|] eqn:E2; [|destruct ws; [congruence|discriminate]].
    apply list_min_spec in E1. destruct E1 as [E1 _]. specialize (HB a E1). cbn [bind]. cbv zeta. unfold rd_sed. cbn [sd_min sd_max sd_compute].
    replace (Rleb 0 a) with true by (symmetry; apply Rleb_true; lra). replace (Rleb b b) with true by (symmetry; apply Rleb_true; lra). reflexivity. }
  rewrite EX, (rd_inside fuel src x m ts ws st kw ps args t0 lo hi F) by auto. cbn [bind]. reflexivity.
Qed.
(** The arguments are determined: one for each managed parameter, with the state's value; a state without one is refused. *)
Theorem C88_arguments : forall m (ps : params), (forall args, pick_all (rd_names m) ps = Ok args -> dkeys args = rd_names m /\ forall k, In k (rd_names m) -> dget k args = dget k ps) /\
  ((exists args, pick_all (rd_names m) ps = Ok args) <-> forall k, In k (rd_names m) -> dget k ps <> None).
Proof.
  intros m ps. split; [apply pick_all_spec|]. split.
  - intros [args H] k Hk. destruct (pick_all_spec _ _ _ H) as [A B]. rewrite <- (B k Hk). apply dget_keys. now rewrite A.
  - apply pick_all_ok.
Qed.
(** Moving t0 and the observations together changes nothing. *)
Theorem C88_shift : forall fuel src x m m' ts ws (st st' : gst) kw (ps ps' : params) args t0 c lo hi F,
  dget (rd_node m) st = Some ps -> pick_all (rd_names m) ps = Ok args -> dget "t0" ps = Some (PNum t0) ->
  dget (rd_node m') st' = Some ps' -> pick_all (rd_names m') ps' = Ok args -> dget "t0" ps' = Some (PNum (t0 + c)) ->
  rb_emits src args lo hi F -> 0 <= lo -> ws <> [] -> (forall w, In w ws -> lo <= w <= hi) ->
  evaluate_sed (PSed (rd_sed (S fuel) src x [] [] m')) (map (fun t => t + c) ts) ws [st'] kw = evaluate_sed (PSed (rd_sed (S fuel) src x [] [] m)) ts ws [st] kw.
Proof.
  intros. rewrite (C88_flux fuel src x m ts ws st kw ps args t0 lo hi F); auto; [|now left]. rewrite (C88_flux fuel src x m' (map (fun t => t + c) ts) ws st' kw ps' args (t0 + c) lo hi F); auto; [|now left].
  do 2 f_equal. unfold mat. rewrite map_map. apply map_ext. intros t. apply map_ext. intros w. now replace (t + c - (t0 + c)) with (t - t0) by ring.
Qed.
(** Finding: with a wavelength beyond the source's the wrapper does not extrapolate but calls itself without end: however deep the
    stack, RecursionError. *)
Lemma rd_runaway : forall fuel src x m ts ws (st : gst) kw (ps : params) args t0 lo hi F, dget (rd_node m) st = Some ps -> pick_all (rd_names m) ps = Ok args -> rb_epoch ps t0 ->
  rb_emits src args lo hi F -> (forall w, In w ws -> 0 <= w) -> (exists w, In w ws /\ (w < lo \/ hi < w)) -> rd_compute fuel src x m ts ws st kw = Err RecursionError.
Proof.
  induction fuel as [|fuel IH]; intros src x m ts ws st kw ps args t0 lo hi F HP HA HE HF HB HO; [reflexivity|].
  cbn [rd_compute]. unfold local_params. rewrite HP. cbn [bind]. rewrite HA. cbn [bind]. rewrite (rb_epoch_eq ps t0 HE). cbn [bind]. cbv zeta. destruct (HF (map (fun t => t - t0) ts)) as (fl & -> & EF). cbn [bind rb_minwave rb_maxwave].
  replace (beyond lo hi ws) with true.
  2:{ symmetry. destruct HO as (w & Hw & HO). unfold beyond. apply orb_true_iff. destruct HO as [HO|HO]; [left|right]; apply existsb_exists; exists w; split; auto; now apply Rltb_true. }
  unfold sed_extrapolated. destruct (list_min ws) as [a|] eqn:E1; [|destruct HO as (w & Hw & _); destruct ws; [destruct Hw|discriminate]]. destruct (list_max ws) as [b|] eqn:E2; [|destruct HO as (w & Hw & _); destruct ws; [destruct Hw|discriminate]].
  apply list_min_spec in E1. destruct E1 as [E1 _]. specialize (HB a E1) as HBa. cbn [bind]. cbv zeta. cbn [sd_min sd_max sd_compute].
  replace (Rleb 0 a) with true by (symmetry; apply Rleb_true; lra). replace (Rleb b b) with true by (symmetry; apply Rleb_true; lra). cbn [andb]. eapply IH; eauto.
Qed.
Theorem C88_beyond_refuted : forall fuel src x m ts ws (st : gst) kw (ps : params) args t0 lo hi F, dget (rd_node m) st = Some ps -> pick_all (rd_names m) ps = Ok args -> rb_epoch ps t0 ->
  rb_emits src args lo hi F -> (forall w, In w ws -> 0 <= w) -> (exists w, In w ws /\ (w < lo \/ hi < w)) ->
  evaluate_sed (PSed (rd_sed fuel src x [] [] m)) ts ws [st] kw = Err RecursionError.
Proof.
  intros fuel src x m ts ws st kw ps args t0 lo hi F HP HA HE HF HB HO. unfold evaluate_sed, eval_single, sed_single. change (sd_node (rd_sed fuel src x [] [] m)) with (rd_node m). unfold local_params. rewrite HP.
  cbn [bind]. unfold rest_frame. change (sd_redshift (rd_sed fuel src x [] [] m)) with false. cbv iota. cbn [bind].
  assert (EX : sed_extrapolated (rd_sed fuel src x [] [] m) ts ws st kw = Err RecursionError); [|now rewrite EX].
  unfold sed_extrapolated. destruct (list_min ws) as [a|] eqn:E1; [|destruct HO as (w & Hw & _); destruct ws; [destruct Hw|discriminate]]. destruct (list_max ws) as [b|] eqn:E2; [|destruct HO as (w & Hw & _); destruct ws; [destruct Hw|discriminate]].
  apply list_min_spec in E1. destruct E1 as [E1 _]. specialize (HB a E1) as HBa. cbn [bind]. cbv zeta. unfold rd_sed. cbn [sd_min sd_max sd_compute].
  replace (Rleb 0 a) with true by (symmetry; apply Rleb_true; lra). replace (Rleb b b) with true by (symmetry; apply Rleb_true; lra). cbn [andb]. eapply rd_runaway; eauto.
Qed.
(** A case: flux mass * 2^(-t), mass from the prior overridden by the dictionary. *)
Definition decay : rbfun := fun ts args => Ok (mkRb 1000 9000 (fun ts ws => Ok (mat ts ws (fun t _ => match num_param "mass" args with Some x => x * Rpower 2 (- t) | None => 0 end)))).
Example C88_case : exists m, rd_make [] "kn" [("mass", Const (PNum 3))]%string [("t0", Const (PNum 10))]%string (Some [("mass", Drawn 0); ("vel", Drawn 1)]%string) = Ok m /\
  rd_names m = ["mass"; "vel"]%string /\
  evaluate_sed (PSed (rd_sed 1 decay None [] [] m)) [12] [5000] [[("kn"%string, [("t0", PNum 10); ("redshift", PNum 4); ("mass", PNum 3); ("vel", PNum 1)]%string)]] [] = Ok (SOne [[in_njy (3 * Rpower 2 (- (12 - 10))) 5000]]).
Proof.
  eexists. split; [reflexivity|]. split; [reflexivity|].
  rewrite (C88_flux 0 decay None _ [12] [5000] _ [] [("t0", PNum 10); ("redshift", PNum 4); ("mass", PNum 3); ("vel", PNum 1)]%string [("mass", PNum 3); ("vel", PNum 1)]%string 10 1000 9000 (fun t _ => 3 * Rpower 2 (- t))); try reflexivity; try lra; try discriminate.
  - left. reflexivity.
  - intros ts. eexists. split; [reflexivity|]. intros ws _. reflexivity.
  - intros w [<- | []]. lra.
Qed.
