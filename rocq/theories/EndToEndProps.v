(** Property C101: simulated light curves from sampled states to noisy fluxes, with the concrete flux pipeline and survey tables. *)
From Coq Require Import Reals String List Bool Arith ZArith Lia Lra.
From Verif Require Import Base BaseFacts RealBase PassbandModel PassbandProofs PassbandProps ObsTableModel ObsTableProps SedModel SedProps SedPipeline SedBands
  SimulateModel SimulateProps SimulateDefined NoiseModel FakeModel SurveyModel RomanModel EndToEndModel.
Import ListNotations.
Open Scope R_scope.

(** ** Changing the type of the states *)
Section Pull.
Context {St St' PV : Type}.
Variable h : St' -> St.
Definition pull (m : @physical St) : @physical St' :=
  mkPhys (ph_bandflux m) (fun ts st => ph_mask m ts (h st)) (fun s ts fs st => ph_eval m s ts fs (h st)) (ph_error m).
Definition push (sm : @samples St' PV) : @samples St PV :=
  mkSamples (map h (sm_states sm)) (sm_ra sm) (sm_dec sm) (sm_t0 sm) (sm_z sm) (sm_t0col sm) (sm_params sm) (sm_param sm).
Lemma pull_objects : forall ball m draws um save surveys mat sm a res,
  all_objects ball m draws um save surveys mat (push sm) a res = all_objects ball (pull m) draws um save surveys mat sm a res.
Proof.
  intros ball m draws um save surveys mat sm a res. unfold all_objects. cbn [sm_states push]. rewrite map_length.
  generalize (length (sm_states sm)) as n. generalize 0%nat as b. generalize (sm_states sm) as l. intros l. revert a res.
  induction l as [|x l IH]; intros a res b n; [destruct n; reflexivity|]. destruct n as [|n]; [reflexivity|]. cbn [seq map combine fold_res].
  assert (E : one_object ball m draws um save surveys mat (push sm) b (h x) a = one_object ball (pull m) draws um save surveys mat sm b x a) by reflexivity.
  rewrite E. destruct (one_object ball (pull m) draws um save surveys mat sm b x a) as [[a' t]|]; [|reflexivity]. cbn [bind].
  destruct (dget "nobs" res) as [l0|]; [|reflexivity]. destruct (b <? length l0)%nat; [|reflexivity]. apply IH.
Qed.
Lemma simulate_pull : forall ball m draws num sm surveys npass save params um off,
  simulate ball m draws num (push sm) surveys npass save params um off = simulate ball (pull m) draws num sm surveys npass save params um off.
Proof.
  intros. unfold simulate. cbn [ph_bandflux pull]. destruct (num <=? 0)%Z; auto. destruct (negb (length surveys =? npass)%nat); auto.
  destruct ((1 <? length surveys)%nat && ph_bandflux m)%bool; auto. cbv zeta.
  change (add_params (push sm) params (object_dict (Z.to_nat num) (push sm))) with (add_params sm params (object_dict (Z.to_nat num) sm)).
  destruct (add_params sm params (object_dict (Z.to_nat num) sm)) as [res|]; auto. cbn [bind]. cbn [sm_t0 push].
  destruct (get_time_windows (sm_t0 sm) off) as [w|]; auto. cbn [bind].
  change (all_matches ball surveys (push sm) (fst w) (snd w)) with (all_matches ball surveys sm (fst w) (snd w)).
  destruct (all_matches ball surveys sm (fst w) (snd w)) as [mt|]; auto. cbn [bind]. now rewrite pull_objects.
Qed.
End Pull.

(** ** Error bars row by row *)
Lemma finite_spec : forall l r, finite l = Ok r <-> l = map Some r.
Proof.
  induction l as [|[x|] l IH]; intros r; cbn [finite].
  - split; [intros H; injection H as <-; auto|destruct r; [auto|discriminate]].
  - destruct (finite l) as [t|] eqn:E; cbn [bind].
    + rewrite (proj1 (IH t) eq_refl). split; [intros H; injection H as <-; auto|].
      destruct r as [|y r]; [discriminate|]. cbn [map]. intros H. injection H as -> H. f_equal. f_equal.
      assert (X : Ok t = Ok r) by (apply IH; rewrite (proj1 (IH t) eq_refl); auto). congruence.
    + split; [discriminate|]. destruct r as [|y r]; [discriminate|]. cbn [map]. intros H. injection H as -> H. apply IH in H. discriminate.
  - split; [discriminate|]. destruct r; discriminate.
Qed.
Lemma forall2_map : forall A B C (f : A -> C) (g : B -> C) (P : C -> C -> Prop) (a : list A) (b : list B), Forall2 (fun x y => P (f x) (g y)) a b -> Forall2 P (map f a) (map g b).
Proof. induction 1; simpl; auto. Qed.
Lemma forall2_self : forall A B (f : A -> B) (P : A -> B -> Prop) l, (forall x, In x l -> P x (f x)) -> Forall2 P l (map f l).
Proof. induction l as [|x l IH]; intros H; simpl; constructor; auto. apply H; simpl; auto. apply IH. intros. apply H; simpl; auto. Qed.
Lemma in_rows_each : forall o index i, in_rows o index = true -> In i index -> in_rows o [i] = true.
Proof. intros o index i H HI. unfold in_rows in *. rewrite forallb_forall in H. cbn [forallb]. now rewrite (H _ HI). Qed.
(** The error bars of several observations are those of each observation by itself. *)
Lemma errors_each : forall sv flux index out, length flux = length index -> sv_errors sv flux index = Ok out ->
  Forall2 (fun p e => sv_errors sv [fst p] [snd p] = Ok [e]) (combine flux index) out.
Proof.
  intros sv flux index out HL H.
  assert (INS : forall p, In p (combine flux index) -> In (snd p) index) by (intros [x i] HI; apply in_combine_r in HI; auto).
  destruct sv as [o|o|o|k]; cbn [sv_errors] in *.
  - unfold opsim_errors in *. destruct (in_rows o index) eqn:EI; [|discriminate]. cbn [negb] in H.
    destruct (safe_number o "pixel_scale") as [ps|] eqn:E1; [|discriminate]. cbn [bind] in H.
    destruct (need_cols o _) eqn:E2 in H; [|discriminate]. cbn [bind] in H.
    destruct (safe_number o "read_noise") as [rn|] eqn:E3; [|discriminate]. cbn [bind] in H.
    destruct (safe_number o "dark_current") as [dk|] eqn:E4; [|discriminate]. cbn [bind] in H.
    destruct (length flux =? length index)%nat; [|discriminate]. cbn [negb] in H. injection H as <-.
    apply forall2_self. intros [x i] HI. pose proof (INS _ HI) as HJ. cbn [fst snd] in *. rewrite (in_rows_each _ _ _ EI HJ), E2. reflexivity.
  - unfold ztf_errors in *. destruct (in_rows o index) eqn:EI; [|discriminate]. cbn [negb] in H.
    destruct (need_cols o _) eqn:E2 in H; [|discriminate]. cbn [bind] in H.
    destruct (safe_number o "gain") as [g|] eqn:E1; [|discriminate]. cbn [bind] in H.
    destruct (need_cols o ["zp"%string]) eqn:E5 in H; [|discriminate]. cbn [bind] in H.
    destruct (safe_number o "read_noise") as [rn|] eqn:E3; [|discriminate]. cbn [bind] in H.
    destruct (safe_number o "dark_current") as [dk|] eqn:E4; [|discriminate]. cbn [bind] in H.
    destruct (length flux =? length index)%nat; [|discriminate]. cbn [negb] in H. injection H as <-.
    apply forall2_self. intros [x i] HI. pose proof (INS _ HI) as HJ. cbn [fst snd] in *. rewrite (in_rows_each _ _ _ EI HJ), E2. cbn [bind negb]. rewrite E5. reflexivity.
  - unfold roman_errors in *. destruct (in_rows o index) eqn:EI; [|discriminate]. cbn [negb] in H.
    destruct (need_cols o ["exptime"%string]) eqn:E2 in H; [|discriminate]. cbn [bind] in H.
    destruct (safe_number o "zodi_level") as [g|] eqn:E1; [|discriminate]. cbn [bind] in H.
    destruct (need_cols o _) eqn:E5 in H; [|discriminate]. cbn [bind] in H.
    destruct (safe_number o "dark_current") as [dk|] eqn:E4; [|discriminate]. cbn [bind] in H.
    destruct (length flux =? length index)%nat; [|discriminate]. cbn [negb] in H. injection H as <-.
    apply forall2_self. intros [x i] HI. pose proof (INS _ HI) as HJ. cbn [fst snd] in *. rewrite (in_rows_each _ _ _ EI HJ), E2. cbn [bind negb]. rewrite E5. reflexivity.
  - unfold fake_error in *. destruct (fk_const k) as [mp|] eqn:EC.
    + destruct (need_col (fk_obs k) "filter") as [fs|] eqn:EF; [|discriminate]. cbn [bind] in *.
      destruct (forallb _ index) eqn:EI in H; [|discriminate]. cbn [negb] in H.
      revert flux out HL H INS. induction index as [|i index IH]; intros flux out HL H INS.
      * destruct flux; [|discriminate]. cbn in H. injection H as <-. constructor.
      * destruct flux as [|x flux]; [discriminate|]. cbn [combine map seq_res] in *.
        cbn [forallb] in EI. apply andb_true_iff in EI. destruct EI as [EI1 EI2].
        match type of H with bind ?X _ = _ => destruct X as [v|] eqn:EV end; [|discriminate]. cbn [bind] in H.
        destruct (seq_res _) as [t|] eqn:ET in H; [|discriminate]. cbn [bind] in H. injection H as <-. constructor.
        -- cbn [fst snd forallb]. rewrite EI1. cbn [andb negb]. rewrite EV. reflexivity.
        -- apply IH; auto. intros p HI. apply in_combine_r with (l := flux) (x := fst p). destruct p; auto.
    + destruct (forallb _ index) eqn:EI in H; [|discriminate]. cbn [negb] in H.
      destruct (need_col (fk_obs k) "psf_footprint") as [c1|]; [|discriminate]. cbn [bind] in *.
      destruct (need_col (fk_obs k) "exptime") as [c2|]; [|discriminate]. cbn [bind] in *.
      destruct (need_col (fk_obs k) "nexposure") as [c3|]; [|discriminate]. cbn [bind] in *.
      destruct (need_col (fk_obs k) "sky") as [c4|]; [|discriminate]. cbn [bind] in *.
      destruct (need_col (fk_obs k) "zp") as [c5|]; [|discriminate]. cbn [bind] in *.
      destruct (safe_number (fk_obs k) "read_noise") as [rn|]; [|discriminate]. cbn [bind] in *.
      destruct (safe_number (fk_obs k) "dark_current") as [dk|]; [|discriminate]. cbn [bind] in *.
      destruct (length flux =? length index)%nat; [|discriminate]. cbn [negb] in H. injection H as <-.
      apply forall2_self. intros [x i] HI. cbn [fst snd forallb]. rewrite forallb_forall in EI. pose proof (INS _ HI) as HJ. cbn [snd] in HJ.
      rewrite (EI _ HJ). reflexivity.
Qed.

(** ** The vocabulary *)
(** The states for which the model answers observation by observation; asked for nothing it answers nothing. *)
Definition settled (m : phys) (groups : list pgroup) (st : gst) : Prop :=
  one_by_one m st /\ forall g b, In g groups -> evaluate_bandfluxes m (PGroup g) [] (Some []) [st] = Ok (BOne b) -> b = [].
(** The window around the object's own t0; without a t0 there is none. *)
Definition in_window (node : string) (off : option (list (option R))) (st : gst) (t : R) : Prop :=
  forall before after t0, off = Some [before; after] -> get_param node st "t0" = PNum t0 ->
    (forall d, before = Some d -> t0 - d <= t) /\ (forall d, after = Some d -> t <= t0 + d).
(** Row j of the table is an observation of the object with state [st]. *)
Definition seen_row (node : string) (off : option (list (option R))) (use_mask : bool) (keep : gst -> R -> bool) (st : gst) (o : obstable) (j : nat) : Prop :=
  exists ra dec ra' dec' t radius, get_param node st "ra" = PNum ra /\ get_param node st "dec" = PNum dec /\
    num_at o "ra" j = Some ra' /\ num_at o "dec" j = Some dec' /\ num_at o "time" j = Some t /\
    dget "radius" (ob_values o) = Some (SNum radius) /\ separation ra' dec' ra dec <= radius /\
    in_window node off st t /\ (use_mask = true -> keep st t = true) /\
    (forall fp, ob_footprint o = Some fp -> fp (ra, dec) (ra', dec') (num_at o "rotation" j) = true).

(** ** The states give positions and windows *)
Lemma numbers_spec : forall node name sts l, numbers node name sts = Ok l -> Forall2 (fun st x => get_param node st name = PNum x) sts l.
Proof.
  intros node name. induction sts as [|st sts IH]; intros l H; cbn [numbers] in H; [injection H as <-; constructor|].
  destruct (get_param node st name) as [|x|] eqn:E; try discriminate. destruct (numbers node name sts) as [l'|]; [|discriminate]. cbn [bind] in H.
  injection H as <-. constructor; auto.
Qed.
Lemma f2_nth : forall A B (P : A -> B -> Prop) l r i a, Forall2 P l r -> nth_error l i = Some a -> exists b, nth_error r i = Some b /\ P a b.
Proof. intros A B P l r i a H. revert i. induction H; intros [|i] E; try discriminate; cbn in *; [injection E as <-; eauto|auto]. Qed.
Lemma f2_nth_r : forall A B (P : A -> B -> Prop) l r i b, Forall2 P l r -> nth_error r i = Some b -> exists a, nth_error l i = Some a /\ P a b.
Proof. intros A B P l r i b H. revert i. induction H; intros [|i] E; try discriminate; cbn in *; [injection E as <-; eauto|auto]. Qed.
Lemma arr_shift_nth : forall l d rs i x, arr_shift l d = Ok rs -> nth_error l i = Some x -> exists r, x = Some r /\ nth_error rs i = Some (r + d).
Proof.
  induction l as [|[r|] l IH]; intros d rs i x H E; cbn [arr_shift] in H; try (destruct i; discriminate).
  destruct (arr_shift l d) as [rs'|] eqn:ES; [|discriminate]. cbn [bind] in H. injection H as <-. destruct i as [|i]; cbn in *; [injection E as <-; eauto|eauto].
Qed.
Lemma window_spec : forall node sts off lo hi i st t, get_time_windows (t0_of node sts) off = Ok (lo, hi) -> nth_error sts i = Some st ->
  ((forall a, bound_of (targ_of lo) i = Some a -> a <= t) /\ (forall b, bound_of (targ_of hi) i = Some b -> t <= b) <-> in_window node off st t).
Proof.
  intros node sts off lo hi i st t HW HI. destruct off as [off|].
  2:{ assert (X : get_time_windows (t0_of node sts) None = Ok (None, None)) by (destruct (t0_of node sts); reflexivity). rewrite X in HW. injection HW as <- <-.
      split; [intros _ b a r E; discriminate|]. intros _. split; intros; discriminate. }
  (* the t0 of every object, if there is one at all *)
  assert (T : t0_of node sts = T0None /\ (forall r, get_param node st "t0" <> PNum r) \/
              exists l, (t0_of node sts = T0Arr l \/ exists r, t0_of node sts = T0Scalar r /\ l = [Some r]) /\
                nth_error l i = Some (match get_param node st "t0" with PNum r => Some r | _ => None end)).
  { destruct sts as [|s0 [|s1 sts]].
    - destruct i; discriminate.
    - cbn [t0_of]. destruct i as [|i]; [|destruct i; discriminate]. cbn in HI. injection HI as ->.
      destruct (get_param node st "t0") as [|r|] eqn:E; [left; split; [auto|intros; discriminate]| |left; split; [auto|intros; discriminate]].
      right. exists [Some r]. split; [right; eauto|reflexivity].
    - set (all := s0 :: s1 :: sts) in *. assert (X : t0_of node all = if existsb (fun st : gst => match dget node st with Some ps => dmem "t0" ps | None => false end) all
         then T0Arr (map (fun st => match get_param node st "t0" with PNum r => Some r | _ => None end) all) else T0None) by reflexivity.
      rewrite X. match goal with |- context [if ?b then _ else _] => destruct b eqn:E end.
      + right. eexists. split; [left; reflexivity|]. rewrite nth_error_map, HI. reflexivity.
      + left. split; auto. intros r G. apply nth_error_In in HI.
        assert (Y : existsb (fun st : gst => match dget node st with Some ps => dmem "t0" ps | None => false end) all = true); [|rewrite E in Y; discriminate].
        apply existsb_exists. exists st. split; auto. unfold get_param in G. destruct (dget node st) as [ps|]; [|discriminate].
        unfold dmem. destruct (dget "t0" ps); [auto|discriminate]. }
  destruct T as [[T N]|(l & T & NL)].
  - rewrite T in HW. cbn in HW. injection HW as <- <-. split; [intros _ b a r E G; now apply N in G|]. intros _. split; intros; discriminate.
  - assert (W : exists before after, off = [before; after] /\ exists s, shift_side l (-1) before = Ok s /\ shift_side l 1 after = Ok hi /\ s = lo).
    { destruct T as [T|(r & T & ->)]; rewrite T in HW; cbn [get_time_windows] in HW; destruct off as [|b [|a [|? ?]]]; try discriminate;
        exists b, a; split; auto.
      - destruct (shift_side l (-1) b) as [s|]; [|discriminate]. cbn [bind] in HW. destruct (shift_side l 1 a); [|discriminate]. cbn [bind] in HW.
        injection HW as <- <-. eauto.
      - destruct (shift_side [Some r] (-1) b) as [s|]; [|discriminate]. cbn [bind] in HW. destruct (shift_side [Some r] 1 a); [|discriminate]. cbn [bind] in HW.
        injection HW as <- <-. eauto. }
    destruct W as (before & after & -> & s & S1 & S2 & ->). clear T HW.
    assert (SIDE : forall sg d w, shift_side l sg (Some d) = Ok w -> exists t0, get_param node st "t0" = PNum t0 /\ bound_of (targ_of w) i = Some (t0 + sg * d)).
    { intros sg d w E. cbn [shift_side] in E. destruct (arr_shift l (sg * d)) as [rs|] eqn:EA; [|discriminate]. cbn [bind] in E. injection E as <-.
      destruct (arr_shift_nth _ _ _ _ _ EA NL) as (r & E1 & E2). exists r. cbn [targ_of bound_of]. split; auto.
      destruct (get_param node st "t0"); try discriminate. congruence. }
    assert (SIDE0 : forall sg w, shift_side l sg None = Ok w -> bound_of (targ_of w) i = None) by (intros sg w E; cbn in E; injection E as <-; reflexivity).
    split.
    + intros [A B] b a t0 E G. injection E as <- <-. split; intros d ->.
      * destruct (SIDE _ _ _ S1) as (t0' & G' & BD). assert (t0' = t0) as -> by congruence. apply A in BD. lra.
      * destruct (SIDE _ _ _ S2) as (t0' & G' & BD). assert (t0' = t0) as -> by congruence. apply B in BD. lra.
    + intros HI2. split; intros x BX.
      * destruct before as [d|]; [|rewrite (SIDE0 _ _ S1) in BX; discriminate]. destruct (SIDE _ _ _ S1) as (t0 & G & BD). rewrite BD in BX. injection BX as <-.
        destruct (HI2 _ _ _ eq_refl G) as [A _]. specialize (A _ eq_refl). lra.
      * destruct after as [d|]; [|rewrite (SIDE0 _ _ S2) in BX; discriminate]. destruct (SIDE _ _ _ S2) as (t0 & G & BD). rewrite BD in BX. injection BX as <-.
        destruct (HI2 _ _ _ eq_refl G) as [_ A]. specialize (A _ eq_refl). lra.
Qed.

(** ** The model and the error bars, observation by observation *)
Section Pointwise.
Variables (m : phys) (groups : list pgroup) (tables : list survey) (mask : list R -> gst -> list bool) (keep : gst -> R -> bool).
Definition flux_at (d : R) (s : nat) (st : gst) (t : R) (f : string) : R :=
  match nth_error groups s with
  | Some g => match evaluate_bandfluxes m (PGroup g) [t] (Some [f]) [st] with Ok (BOne [x]) => x | _ => d end
  | None => d
  end.
Definition error_at (d : R) (s : nat) (x : R) (j : nat) : R :=
  match nth_error tables s with
  | Some tb => match sv_errors tb [x] [j] with Ok [Some e] => e | _ => d end
  | None => d
  end.
Lemma eval_each : forall d s ts fs st b, settled m groups st -> ph_eval (sim_model m groups tables mask) s ts fs st = Ok b ->
  b = zip_with (flux_at d s st) ts fs.
Proof.
  intros d s ts fs st b [HO HQ] H. cbn [ph_eval sim_model] in H. destruct (nth_error groups s) as [g|] eqn:EG; [|discriminate].
  destruct (evaluate_bandfluxes m (PGroup g) ts (Some fs) [st]) as [[b'|]|] eqn:EV; try discriminate. cbn [bind] in H. injection H as ->.
  assert (HL : length fs = length ts).
  { destruct (Nat.eq_dec (length fs) (length ts)) as [|N]; auto. rewrite (proj2 (C45_errors m g ts fs [st]) N) in EV. discriminate. }
  destruct ts as [|t ts].
  - destruct fs; [|discriminate]. cbn [zip_with]. apply (HQ g); auto. eapply nth_error_In; eauto.
  - apply C45_entries in EV; auto; [|discriminate].
    assert (G : forall ts fs b, length fs = length ts -> Forall2 (fun tf x => single_flux m (PGroup g) st (fst tf) (snd tf) x) (combine ts fs) b -> b = zip_with (flux_at d s st) ts fs).
    { clear - EG. induction ts as [|t ts IH]; intros [|f fs] b HL H; try discriminate; cbn [combine] in H; inversion H; subst; auto.
      cbn [zip_with fst snd] in *. f_equal; [|apply IH; auto]. unfold flux_at. rewrite EG. unfold single_flux in H2. now rewrite H2. }
    now apply G.
Qed.
Lemma error_each : forall d s fl idx er, ph_error (sim_model m groups tables mask) s fl idx = Ok er -> er = zip_with (error_at d s) fl idx.
Proof.
  intros d s fl idx er H. cbn [ph_error sim_model] in H. destruct (nth_error tables s) as [tb|] eqn:ET; [|discriminate].
  destruct (length fl =? length idx)%nat eqn:EL; [|discriminate]. apply Nat.eqb_eq in EL. cbn [negb] in H.
  destruct (sv_errors tb fl idx) as [out|] eqn:ES; [|discriminate]. cbn [bind] in H. apply finite_spec in H. subst out.
  apply errors_each in ES; auto. revert idx er EL ES. induction fl as [|x fl IH]; intros [|j idx] er EL ES; try discriminate; cbn [combine] in ES;
    inversion ES as [|? ? ? ? E1 E2 E3 E4]; subst; destruct er as [|e er]; try discriminate; auto.
  cbn [map] in E4. injection E4 as -> ->. cbn [zip_with fst snd] in *. f_equal; [|apply IH; auto; lia]. unfold error_at. now rewrite ET, E1.
Qed.
Lemma sim_pointwise : forall d e, (forall ts st, mask ts st = map (keep st) ts) ->
  pointwise (pull (@proj1_sig gst (settled m groups)) (sim_model m groups tables mask))
    (fun s st => flux_at d s (proj1_sig st)) (error_at e) (fun st => keep (proj1_sig st)).
Proof.
  intros d e HM. constructor.
  - intros s ts fs [st HS] fl H. cbn [proj1_sig]. eapply eval_each; eauto.
  - intros. now apply error_each.
  - intros ts [st HS]. cbn [ph_mask pull sim_model proj1_sig]. apply HM.
Qed.
End Pointwise.

(** A number that is not in a finite column. *)
Definition cell_num (c : ncell) : R := match c with NNum r => r | _ => 0 end.
Lemma fresh_number : forall l : list ncell, exists d, forall r, In (NNum r) l -> r <> d.
Proof.
  intros l. exists (1 + fold_right (fun c a => Rmax (cell_num c) a) 0 l). intros r HI.
  assert (r <= fold_right (fun c a => Rmax (cell_num c) a) 0 l); [|lra].
  induction l as [|c l IH]; [destruct HI|]. cbn [fold_right]. destruct HI as [->|HI]; [apply Rmax_l|].
  eapply Rle_trans; [now apply IH|apply Rmax_r].
Qed.
Lemma sig_states : forall A (P : A -> Prop) l, (forall x, In x l -> P x) -> exists l' : list (sig P), map (@proj1_sig A P) l' = l.
Proof.
  induction l as [|x l IH]; intros H; [exists []; auto|]. destruct IH as (l' & E); [intros; apply H; simpl; auto|].
  exists (exist P x (H x (or_introl eq_refl)) :: l'). cbn. now rewrite E.
Qed.

(** ** C101 *)
(** The observations of object i in survey s are exactly the rows of that table within its radius of the object's own
    position, inside the window around the object's own t0 (and kept by the mask).  The p-th row of the result belongs
    to one of them; its noise-free flux is the band flux of the object's own state for that row's time and filter, alone, through
    the passband group of the survey; its error bar is the survey's own error for that flux and that row; and its flux differs from
    the noise-free flux by the error bar times the p-th deviate of the generator. *)
Theorem C101_rows : forall ball m node mask keep draws num sts tables groups save params use_mask off r,
  ball_spec ball -> (forall ts st, mask ts st = map (keep st) ts) ->
  (forall st, In st sts -> settled m groups st) -> length sts = Z.to_nat num ->
  (forall tb, In tb tables -> tinv (sv_table tb) /\ exists rad, dget "radius" (ob_values (sv_table tb)) = Some (SNum rad) /\ 0 <= rad <= 180) ->
  NoDup save -> (forall k, In k save -> ~ In k base_cols) ->
  sim_run ball m node mask draws num sts tables groups save params use_mask off = Ok r ->
  exists rows : nat -> nat -> list nat,
    (forall i s st tb, nth_error sts i = Some st -> nth_error tables s = Some tb ->
       NoDup (rows i s) /\ forall j, In j (rows i s) <-> seen_row node off use_mask keep st (sv_table tb) j) /\
    let obs := observations rows (length sts) (length tables) in
    length (sr_index r) = length obs /\ (forall k c, In (k, c) (sr_nested r) -> length c = length obs) /\
    forall p i s j, nth_error obs p = Some (i, s, j) ->
      exists st tb g t f x e, nth_error sts i = Some st /\ nth_error tables s = Some tb /\ nth_error groups s = Some g /\
        num_at (sv_table tb) "time" j = Some t /\ item_at (sv_table tb) "filter" j = Some f /\
        single_flux m (PGroup g) st t (text_of f) x /\ sv_errors tb [x] [j] = Ok [Some e] /\
        let cols k := nth_error (col k (sr_nested r)) p in
        nth_error (sr_index r) p = Some i /\
        cols "mjd"%string = Some (NNum t) /\ cols "filter"%string = Some (NStr (text_of f)) /\
        cols "flux_perfect"%string = Some (NNum x) /\ cols "fluxerr"%string = Some (NNum e) /\
        cols "flux"%string = Some (NNum (x + e * draws p)) /\ cols "survey_idx"%string = Some (NIdx s) /\
        (forall k, In k save -> cols k = Some (match item_at (sv_table tb) k j with Some c => ncell_of c | None => NNone end)).
Proof.
  intros ball m node mask keep draws num sts tables groups save params use_mask off r HB HM HS HN HT HD HBC H.
  unfold sim_run in H. destruct (num <=? 0)%Z; [discriminate|]. destruct (sim_samples node sts) as [sm|] eqn:ESM; [|discriminate]. cbn [bind] in H.
  unfold sim_samples in ESM. destruct (numbers node "ra" sts) as [ras|] eqn:ERA; [|discriminate]. cbn [bind] in ESM.
  destruct (numbers node "dec" sts) as [decs|] eqn:EDEC; [|discriminate]. cbn [bind] in ESM. injection ESM as <-.
  apply numbers_spec in ERA. apply numbers_spec in EDEC.
  destruct (sig_states _ (settled m groups) sts HS) as (sts' & ES).
  set (sm' := mkSamples sts' ras decs (t0_of node sts) (map (fun st => VParam (get_param node st "redshift")) sts)
     (map (fun st => VParam (get_param node st "t0")) sts) (map VState sts) (state_column sts)).
  set (h := @proj1_sig gst (settled m groups)) in *.
  match type of H with simulate _ _ _ _ ?SM _ _ _ _ _ _ = _ => assert (EP : SM = push h sm') by (unfold push, sm'; cbn; now rewrite ES) end.
  rewrite EP, simulate_pull in H. clear EP.
  assert (RO : run_ok num sm' (map sv_table tables)).
  { constructor; cbn [sm_states sm_ra sm_dec sm'].
    - rewrite <- HN, <- ES. now rewrite map_length.
    - rewrite <- HN. symmetry. eapply F2_length; eauto.
    - rewrite <- HN. symmetry. eapply F2_length; eauto.
    - apply Forall_forall. intros o HI. apply in_map_iff in HI. destruct HI as (tb & <- & HI). apply HT; auto.
    - intros o HI. apply in_map_iff in HI. destruct HI as (tb & <- & HI). destruct (HT _ HI) as [_ (rad & E & B)]. exists rad. unfold radius_of. rewrite E. auto. }
  destruct (fresh_number (col "flux_perfect" (sr_nested r))) as [d HFD]. destruct (fresh_number (col "fluxerr" (sr_nested r))) as [e0 HFE].
  pose proof (sim_pointwise m groups tables mask keep d e0 HM) as PW. fold h in PW.
  destruct (C39_rows _ _ _ _ _ _ _ _ _ _ _ _ _ _ _ HB PW RO HD HBC H) as (lo & hi & rows & HW & RS & LEN & OBS). cbn [sm_t0 sm'] in HW.
  assert (LS : length sts' = length sts) by (rewrite <- ES; now rewrite map_length).
  assert (LT : length (map sv_table tables) = length tables) by apply map_length. rewrite LT in *. rewrite <- HN in *.
  exists rows. split.
  - intros i s st tb Hi Hs.
    assert (Hi' : exists st', nth_error sts' i = Some st' /\ h st' = st).
    { rewrite <- ES in Hi. rewrite nth_error_map in Hi. destruct (nth_error sts' i) as [st'|]; [|discriminate]. injection Hi as <-. eauto. }
    destruct Hi' as (st' & Hi' & EH).
    destruct (f2_nth _ _ _ _ _ _ _ ERA Hi) as (ra & Hra & Gra). destruct (f2_nth _ _ _ _ _ _ _ EDEC Hi) as (dec & Hdec & Gdec).
    destruct (HT tb) as [_ (rad & Erad & _)]; [eapply nth_error_In; eauto|].
    assert (Hs' : nth_error (map sv_table tables) s = Some (sv_table tb)) by (rewrite nth_error_map, Hs; auto).
    assert (RR : radius_of (sv_table tb) None = Some rad) by (unfold radius_of; now rewrite Erad).
    destruct (RS i s st' (sv_table tb) ra dec rad Hi' Hs' Hra Hdec RR) as [ND IFF]. split; auto. intros j. rewrite IFF. unfold matches, seen_row.
    split.
    + intros [(ra' & dec' & t & A1 & A2 & A3 & A4 & A5 & A6 & A7) K]. exists ra, dec, ra', dec', t, rad. repeat match goal with |- _ /\ _ => split end; auto.
      * apply (window_spec _ _ _ _ _ _ _ _ HW Hi). auto.
      * intros UM. destruct (K UM) as (t' & E & KT). rewrite A3 in E. injection E as <-. now rewrite <- EH.
    + intros (ra1 & dec1 & ra' & dec' & t & rad1 & B1 & B2 & A1 & A2 & A3 & B3 & A4 & WI & K & A7).
      assert (ra1 = ra) as -> by congruence. assert (dec1 = dec) as -> by congruence. assert (rad1 = rad) as -> by congruence.
      apply (window_spec _ _ _ _ _ _ _ _ HW Hi) in WI. destruct WI as [A5 A6]. split.
      * exists ra', dec', t. repeat match goal with |- _ /\ _ => split end; auto.
      * intros UM. exists t. split; auto. rewrite EH. auto.
  - cbv zeta. split; [exact LEN|]. split.
    { intros k c HI. rewrite <- LEN. destruct (C38_bookkeeping _ _ _ _ _ _ _ _ _ _ _ _ _ _ _ HB PW RO HD HBC H) as (lo' & hi' & rows' & _ & _ & BK). cbv zeta in BK.
      destruct BK as [BK _]. eauto. }
    intros p i s j HP.
    destruct (OBS p i s j HP) as (st' & o & t & f & cols & E1 & E2 & E3 & E4 & -> & C1 & C2 & C3 & C4 & C5 & C6 & C7 & C8).
    cbn [sm_states sm'] in E1. rewrite nth_error_map in E2. destruct (nth_error tables s) as [tb|] eqn:ET; [|discriminate]. cbn in E2. injection E2 as <-.
    set (st := h st') in *. set (x := flux_at m groups d s st t (text_of f)) in *.
    assert (XD : x <> d) by (apply HFD; eapply nth_error_In; exact C4).
    assert (ED : error_at tables e0 s x j <> e0) by (apply HFE; eapply nth_error_In; exact C5).
    assert (SF : exists g, nth_error groups s = Some g /\ single_flux m (PGroup g) st t (text_of f) x).
    { unfold x, flux_at in XD |- *. destruct (nth_error groups s) as [g|]; [|congruence]. exists g. split; auto. unfold single_flux.
      destruct (evaluate_bandfluxes m (PGroup g) [t] (Some [text_of f]) [st]) as [[[|y [|]]|]|] eqn:EV; try congruence. }
    destruct SF as (g & EG & SF).
    assert (SE : sv_errors tb [x] [j] = Ok [Some (error_at tables e0 s x j)]).
    { unfold error_at in ED |- *. rewrite ET in *. destruct (sv_errors tb [x] [j]) as [[|[e|] [|]]|] eqn:EV; try congruence. }
    exists st, tb, g, t, f, x, (error_at tables e0 s x j). rewrite <- ES, nth_error_map, E1. repeat match goal with |- _ /\ _ => split end; auto.
Qed.
