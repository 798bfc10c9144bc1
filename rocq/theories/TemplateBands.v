(** C48 continued: the template models' band fluxes, and the findings. *)
From Coq Require Import Reals String Ascii List Bool Arith ZArith Lia Lra Permutation.
From Verif Require Import Base BaseFacts RealBase PassbandModel PassbandProofs PassbandProps ObsTableModel SedModel SedProps SimulateProps SedPipeline SedBands NoiseModel NoiseProps TemplateModel TemplateProps.
Import ListNotations.
Open Scope R_scope.

Lemma put_by_filter : forall (f : string) (g : R -> R) (h : R * string -> R) ts fs, length fs = length ts ->
  put (map (fun x => String.eqb x f) fs) (map g (mask_list (map (fun x => String.eqb x f) fs) ts)) (map h (combine ts fs)) =
  map (fun tf => if String.eqb (snd tf) f then g (fst tf) else h tf) (combine ts fs).
Proof.
  intros f g h. induction ts as [|t ts IH]; intros [|x fs] H; try discriminate; auto. simpl in H. cbn [combine map mask_list fst snd].
  destruct (String.eqb x f); cbn [map put]; f_equal; apply IH; lia.
Qed.
Lemma bands_loop : forall lc t0 ts fs L (h : R * string -> R) (v : string -> R -> R), length fs = length ts ->
  (forall f qs, In f L -> lc_evaluate lc qs f = Ok (map (v f) qs)) ->
  fold_res (fun out f => bind (lc_evaluate lc (mask_list (map (fun x => String.eqb x f) fs) (map (fun t => t - t0) ts)) f)
                              (fun w => Ok (put (map (fun x => String.eqb x f) fs) w out))) (map h (combine ts fs)) L =
  Ok (map (fun tf => if smem (snd tf) L then v (snd tf) (fst tf - t0) else h tf) (combine ts fs)).
Proof.
  intros lc t0 ts fs L. induction L as [|f L IH]; intros h v HL HV; simpl.
  - reflexivity.
  - rewrite (HV f _ (or_introl eq_refl)). cbn [bind]. rewrite mask_list_map, map_map, (put_by_filter f (fun t => v f (t - t0))) by auto.
    rewrite (IH _ v HL) by (intros; apply HV; right; auto). f_equal. apply map_ext. intros [t x]. cbn [fst snd].
    destruct (String.eqb_spec x f); subst; cbn [orb]; [|reflexivity]. destruct (smem f L); auto.
Qed.
Lemma repeat_map : forall A B (x : B) (l : list A), repeat x (length l) = map (fun _ => x) l.
Proof. induction l; simpl; f_equal; auto. Qed.
(** The flux of filter [f] at one time. *)
Definition flux_at (lc : lcdata) (f : string) (t : R) (x : R) : Prop := lc_evaluate lc [t] f = Ok [x].
Lemma made_pointwise : forall i t0 periodic mags baseline lc b' f, make_lc i t0 periodic mags baseline = Ok (lc, b') -> data_of i f <> None ->
  exists v : R -> R, forall ts, lc_evaluate lc ts f = Ok (map v ts).
Proof.
  intros i t0 periodic mags baseline lc b' f H HD. destruct (data_of i f) as [c|] eqn:E; [|congruence].
  destruct (make_lc_stored _ _ _ _ _ _ _ H f) as [CU REST]. rewrite E in CU. destruct (REST c E) as (_ & _ & MN & MX).
  eexists. intros ts. apply (lc_evaluate_map _ _ _ _ _ _ CU MN MX).
Qed.
Lemma known_filter : forall i t0 periodic mags baseline lc b' f, make_lc i t0 periodic mags baseline = Ok (lc, b') -> (dmem f (lc_curves lc) = true <-> data_of i f <> None).
Proof.
  intros. destruct (make_lc_stored _ _ _ _ _ _ _ H f) as [CU _]. unfold dmem. rewrite CU. destruct (data_of i f); simpl; split; congruence.
Qed.
(** Observation j of a template model gets the value of its own filter's curve at its own time relative to the model's t0. *)
Theorem C48_template_entries : forall i t0 periodic mags baseline lc b' node ts fs (st : gst) (ps : params) mt0,
  make_lc i t0 periodic mags baseline = Ok (lc, b') -> dget node st = Some ps -> dget "t0" ps = Some (PNum mt0) -> length fs = length ts ->
  (forall f, In f fs -> data_of i f <> None) ->
  exists out, lc_bands node lc ts fs st = Ok out /\ length out = length ts /\
    forall j t f, nth_error ts j = Some t -> nth_error fs j = Some f -> exists x, nth_error out j = Some x /\ flux_at lc f (t - mt0) x.
Proof.
  intros i t0 periodic mags baseline lc b' node ts fs st ps mt0 HM HP HT HL HF. unfold lc_bands, local_params. rewrite HP. cbn [bind].
  replace (forallb (fun f => dmem f (lc_curves lc)) (unique_names fs)) with true.
  2: { symmetry. apply forallb_forall. intros f Hf. apply (proj1 (unique_names_In _ _)) in Hf. apply (proj2 (known_filter _ _ _ _ _ _ _ f HM)). auto. }
  cbn [negb]. unfold need. rewrite HT. cbn [bind].
  assert (V : exists v : string -> R -> R, forall f ts, In f (lc_filters lc) -> lc_evaluate lc ts f = Ok (map (v f) ts)).
  { exists (fun f t => match lc_evaluate lc [t] f with Ok [x] => x | _ => 0 end). intros f qs Hf.
    assert (D : data_of i f <> None) by (apply (proj1 (known_filter _ _ _ _ _ _ _ f HM)); apply dmem_true; exact Hf).
    destruct (made_pointwise _ _ _ _ _ _ _ f HM D) as (v & EV). rewrite EV. f_equal. apply map_ext. intros q. rewrite EV. reflexivity. }
  destruct V as (v & V).
  assert (L0 : length ts = length (combine ts fs)) by (rewrite combine_length; lia).
  rewrite L0, (repeat_map _ _ 0), (bands_loop lc mt0 ts fs (lc_filters lc) _ v HL) by (intros; apply V; auto).
  eexists. split; [reflexivity|]. split; [now rewrite map_length|]. intros j t f Ht Hf.
  assert (NC : nth_error (combine ts fs) j = Some (t, f)).
  { clear - Ht Hf. revert fs j Ht Hf. induction ts as [|a ts IH]; intros [|b fs] [|j] Ht Hf; simpl in *; try discriminate; [congruence|auto]. }
  rewrite nth_error_map, NC. cbn [option_map fst snd].
  assert (IN : In f (lc_filters lc)) by (apply dmem_true, (proj2 (known_filter _ _ _ _ _ _ _ f HM)), HF; eapply nth_error_In; eauto).
  assert (SM : smem f (lc_filters lc) = true) by (apply smem_In; exact IN). rewrite SM.
  eexists. split; [reflexivity|]. unfold flux_at. rewrite (V f [t - mt0] IN). reflexivity.
Qed.
(** A filter without a curve is refused. *)
Theorem C48_template_unsupported : forall i t0 periodic mags baseline lc b' node ts fs (st : gst) (ps : params) f,
  make_lc i t0 periodic mags baseline = Ok (lc, b') -> dget node st = Some ps -> In f fs -> data_of i f = None ->
  lc_bands node lc ts fs st = Err ValueError.
Proof.
  intros i t0 periodic mags baseline lc b' node ts fs st ps f HM HP HI HN. unfold lc_bands, local_params. rewrite HP. cbn [bind].
  replace (forallb _ (unique_names fs)) with false; auto. symmetry. apply not_true_is_false. intros X. rewrite forallb_forall in X.
  apply (proj2 (unique_names_In _ _)) in HI. specialize (X f HI). apply (known_filter _ _ _ _ _ _ _ f HM) in X. congruence.
Qed.
(** Template models treat the observations one by one, so everything of C45 holds for them (alignment, permutation, samples). *)
Lemma lc_bands_each : forall i t0 periodic mags baseline lc b' node (st : gst), make_lc i t0 periodic mags baseline = Ok (lc, b') ->
  exists phi, each (fun ts fs => lc_bands node lc ts fs st) phi.
Proof.
  intros i t0 periodic mags baseline lc b' node st HM. destruct (dget node st) as [ps|] eqn:HP.
  2: { exists (fun _ => None). apply each_const_fail. intros. unfold lc_bands, local_params. rewrite HP. reflexivity. }
  destruct (need "t0" ps) as [mt0|e] eqn:HT.
  2: { exists (fun _ => None). apply each_const_fail. intros. unfold lc_bands, local_params. rewrite HP. cbn [bind]. destruct (negb _); auto. rewrite HT. reflexivity. }
  assert (HT' : dget "t0" ps = Some (PNum mt0)). { unfold need in HT. destruct (dget "t0" ps) as [[| |]|]; try discriminate. congruence. }
  exists (fun tf => match lc_evaluate lc [fst tf - mt0] (snd tf) with Ok [x] => Some x | _ => None end).
  intros ts fs HN HL. destruct (forallb (fun f => match data_of i f with Some _ => true | None => false end) fs) eqn:EF.
  - rewrite forallb_forall in EF.
    destruct (C48_template_entries _ _ _ _ _ _ _ node ts fs st ps mt0 HM HP HT' HL) as (out & E & LO & EN).
    { intros f Hf. specialize (EF f Hf). destruct (data_of i f); congruence. }
    rewrite E. cbn [opt]. symmetry. apply traverse_spec. clear - EN LO HL. unfold flux_at in EN. revert fs out HL LO EN.
    induction ts as [|t ts IH]; intros [|f fs] [|o out] HL LO EN; try discriminate; constructor.
    + destruct (EN 0%nat t f eq_refl eq_refl) as (x & X & Y). simpl in X. inversion X; subst. cbn [fst snd]. now rewrite Y.
    + apply IH; try (simpl in *; lia). intros j t' f' A B. apply (EN (S j) t' f' A B).
  - assert (X : exists f, In f fs /\ data_of i f = None).
    { apply not_true_iff_false in EF. rewrite forallb_forall in EF. destruct (Exists_dec (fun f => data_of i f = None) fs) as [Y|Y].
      - intros f. destruct (data_of i f); [right; discriminate|left; auto].
      - apply Exists_exists in Y. exact Y.
      - exfalso. apply EF. intros f Hf. destruct (data_of i f) eqn:E; auto. exfalso. apply Y. apply Exists_exists. eauto. }
    destruct X as (f & HI & HD). rewrite (C48_template_unsupported _ _ _ _ _ _ _ node ts fs st ps f HM HP HI HD). cbn [opt]. symmetry.
    destruct (in_combine_filter f ts fs HL HI) as (t & HC). apply (traverse_none _ _ _ _ _ HC). cbn [fst snd].
    rewrite (proj1 (C48_defined _ _ _ _ _ _ _ f [t - mt0] HM) HD). reflexivity.
Qed.
Theorem C48_template_one_by_one : forall i t0 periodic mags baseline lc b' tp effs (st : gst), make_lc i t0 periodic mags baseline = Ok (lc, b') ->
  (forall e ps, In e effs -> dget (tp_node tp) st = Some ps -> each_effect e ps) -> one_by_one (PBand (template_model tp lc effs)) st.
Proof.
  intros i t0 periodic mags baseline lc b' tp effs st HM HE. cbn [one_by_one]. unfold band_single, template_model. cbn [bm_node bm_compute bm_effects].
  destruct (dget (tp_node tp) st) as [ps|] eqn:HP.
  2: { exists (fun _ => None). apply each_const_fail. intros. unfold local_params. rewrite HP. reflexivity. }
  destruct (lc_bands_each _ _ _ _ _ _ _ (tp_node tp) st HM) as (phi & PH). destruct (bands_each effs ps) as (psi & PS); [intros; apply HE; auto|].
  eexists. intros ts fs HN HL. unfold local_params. rewrite HP. cbn [bind]. apply (each_seq _ phi (fun ts fs b => apply_bands effs ts fs ps b) psi PH PS ts fs HN HL).
Qed.
(** A model with several template curves uses the selected one. *)
Lemma index_of_INR : forall k n, (k < n)%nat -> index_of (INR k) n = Some k.
Proof.
  induction n as [|n IH]; intros H; [lia|]. simpl. destruct (Reqb (INR k) (INR n)) eqn:E.
  - apply Reqb_true, INR_eq in E. now subst.
  - apply IH. apply Reqb_false in E. assert (k <> n) by congruence. lia.
Qed.
Theorem C48_selected : forall node lcs ts fs (st : gst) (ps : params) k lc, dget node st = Some ps ->
  dget "selected_lightcurve" ps = Some (PNum (INR k)) -> nth_error lcs k = Some lc -> multi_bands node lcs ts fs st = lc_bands node lc ts fs st.
Proof.
  intros node lcs ts fs st ps k lc HP HS HN. unfold multi_bands, local_params. rewrite HP. cbn [bind]. rewrite HS. unfold pick.
  rewrite index_of_INR by (apply nth_error_Some; congruence). rewrite HN. reflexivity.
Qed.
(** A single array with a filter column means the same as a dictionary with one array per filter. *)
Theorem C48_array_is_dict : forall rows t0 periodic mags baseline lc b' d lc2 b2 f ts, make_lc (LArray 3 rows) t0 periodic mags baseline = Ok (lc, b') ->
  make_lc (LDict d) t0 periodic mags baseline = Ok (lc2, b2) -> periodic = false ->
  (forall f, data_of (LDict d) f = data_of (LArray 3 rows) f) -> lc_evaluate lc ts f = lc_evaluate lc2 ts f.
Proof.
  intros rows t0 periodic mags baseline lc b' d lc2 b2 f ts H1 H2 -> HD.
  destruct (data_of (LArray 3 rows) f) as [c|] eqn:E.
  2: { rewrite (proj1 (C48_defined _ _ _ _ _ _ _ f ts H1) E). rewrite (proj1 (C48_defined _ _ _ _ _ _ _ f ts H2)) by (rewrite HD; auto). reflexivity. }
  destruct (made_value _ _ _ _ _ _ _ f c ts H1 E) as (x & BX & ->).
  destruct (made_value _ _ _ _ _ _ _ f c ts H2 (eq_trans (HD f) E)) as (y & BY & ->).
  destruct (make_lc_inv _ _ _ _ _ _ _ H1) as (_ & _ & _ & _ & _ & (_ & T1 & N1) & _). destruct (make_lc_inv _ _ _ _ _ _ _ H2) as (_ & _ & _ & _ & _ & (_ & T2 & N2) & _).
  unfold wrapped. rewrite N1, N2, T1, T2. replace y with x; auto. destruct baseline as [b|]; [|congruence].
  destruct BX as (v & V1 & ->), BY as (v2 & V2 & ->). congruence.
Qed.

(** ** Examples and findings *)
Open Scope string_scope.
Definition ex_curve : curve := [(1, 10); (2, 20); (4, 30)].
Lemma rltb_t : forall a b, a < b -> Rltb a b = true. Proof. intros. now apply Rltb_true. Qed.
Lemma rleb_t : forall a b, a <= b -> Rleb a b = true. Proof. intros. now apply Rleb_true. Qed.
Lemma rleb_f : forall a b, b < a -> Rleb a b = false. Proof. intros. now apply Rleb_false. Qed.
Example C48_example : exists lc b', make_lc (LDict [("g", mkTab 2 ex_curve)]) 1 false false (Some [("g", 5)]) = Ok (lc, b') /\
  lc_evaluate lc [1; 2; 10; -1] "g" = Ok [20; 25; 5; 5].
Proof.
  destruct (C48_accepted [("g", mkTab 2 ex_curve)] 1 false (Some [("g", 5)])) as (lc & b' & E).
  - intros f t [X|[]]. inversion X; subst. simpl. split; auto. split; [discriminate|]. lra.
  - intros f b X [<-|[]]. inversion X; subst. left; reflexivity.
  - exists lc, b'. split; auto. destruct (made_value _ _ _ _ _ _ _ "g" ex_curve [1; 2; 10; -1] E eq_refl) as (base & (v & V & ->) & ->).
    simpl in V. inversion V; subst. destruct (make_lc_inv _ _ _ _ _ _ _ E) as (_ & _ & _ & _ & _ & (_ & T1 & N1) & _). f_equal. unfold wrapped. rewrite N1, T1.
    cbn [map ex_curve first_x last_x last hd fst snd as_flux]. unfold interp, interp_seg, last_x, lerp. cbn [last fst snd].
    repeat match goal with |- context [Rleb ?a ?b] => first [rewrite (rleb_t a b) by lra | rewrite (rleb_f a b) by lra] end.
    repeat match goal with |- context [Rltb ?a ?b] => first [rewrite (rltb_t a b) by lra | replace (Rltb a b) with false by (symmetry; apply Rltb_false; lra)] end.
    cbn [andb]. repeat match goal with |- context [Rleb ?a ?b] => first [rewrite (rleb_t a b) by lra | rewrite (rleb_f a b) by lra] end. repeat f_equal; field.
Qed.
Ltac rd := repeat match goal with
  | |- context [Rleb ?a ?b] => first [rewrite (rleb_t a b) by lra | rewrite (rleb_f a b) by lra]
  | |- context [Rltb ?a ?b] => first [rewrite (rltb_t a b) by lra | replace (Rltb a b) with false by (symmetry; apply Rltb_false; lra)] end.
(** "If no baseline is provided, the baseline is 0": with magnitudes it is the flux of magnitude 0, more than 10^12 nJy. *)
Theorem C48_default_baseline_refuted : exists i lc b' x, make_lc i 0 false true None = Ok (lc, b') /\ data_of i "g" <> None /\
  flux_at lc "g" 100 x /\ 10 ^ 12 < x.
Proof.
  set (i := LDict [("g", mkTab 2 [(0, 20); (1, 21)])]).
  destruct (C48_accepted [("g", mkTab 2 [(0, 20); (1, 21)])] 0 true None) as (lc & b' & E).
  - intros f t [X|[]]. inversion X; subst. simpl. split; auto. split; [discriminate|]. lra.
  - discriminate.
  - exists i, lc, b', (mag2flux 0). split; auto. split; [discriminate|]. split.
    + unfold flux_at. destruct (made_value _ _ _ _ _ _ _ "g" _ [100] E eq_refl) as (base & -> & ->).
      destruct (make_lc_inv _ _ _ _ _ _ _ E) as (_ & _ & _ & _ & _ & (_ & T1 & N1) & _). unfold wrapped. rewrite N1, T1.
      cbn [map tb_rows first_x last_x last hd fst snd as_flux]. rd. cbn [andb]. reflexivity.
    + unfold mag2flux, mag_zp. rewrite <- (Rpower_pow 12 10) by lra. apply Rpower_lt; [lra|]. simpl. lra.
Qed.
(** The caller's baseline dictionary is converted in place: building a second curve from the same dictionary converts it twice. *)
Theorem C48_caller_baseline_refuted : exists i b lc b1 lc2 b2 x y, make_lc i 0 false true (Some b) = Ok (lc, Some b1) /\ b1 <> b /\
  make_lc i 0 false true (Some b1) = Ok (lc2, Some b2) /\ flux_at lc "g" 100 x /\ flux_at lc2 "g" 100 y /\ y < x.
Proof.
  set (d := [("g", mkTab 2 [(0, 20); (1, 21)])]).
  assert (MK : forall v, exists lc, make_lc (LDict d) 0 false true (Some [("g", v)]) = Ok (lc, Some [("g", mag2flux v)]) /\ flux_at lc "g" 100 (mag2flux v)).
  { intros v. destruct (C48_accepted d 0 true (Some [("g", v)])) as (lc & b' & E).
    - intros f t [X|[]]. inversion X; subst. simpl. split; auto. split; [discriminate|]. lra.
    - intros f b X [<-|[]]. inversion X; subst. left; reflexivity.
    - exists lc. destruct (make_lc_inv _ _ _ _ _ _ _ E) as (_ & _ & _ & _ & _ & (_ & T1 & N1) & _ & _ & _ & EB & B'). rewrite E, B', EB. split; [reflexivity|].
      unfold flux_at. destruct (made_value _ _ _ _ _ _ _ "g" _ [100] E eq_refl) as (base & (w & W & ->) & ->). simpl in W. inversion W; subst w.
      unfold wrapped. rewrite N1, T1. cbn [map tb_rows first_x last_x last hd fst snd as_flux]. rd. cbn [andb]. reflexivity. }
  assert (M1 : mag2flux (314 / 10) = 1) by apply C53_reference.
  destruct (MK (89 / 10)) as (lc & E1 & F1). assert (M2 : mag2flux (89 / 10) = 10 ^ 9) by apply C53_reference. rewrite M2 in *.
  destruct (MK (10 ^ 9)) as (lc2 & E2 & F2).
  exists (LDict d), [("g", 89 / 10)], lc, [("g", 10 ^ 9)], lc2, [("g", mag2flux (10 ^ 9))], (10 ^ 9), (mag2flux (10 ^ 9)).
  split; auto. split; [intros X; inversion X; lra|]. split; auto. split; auto. split; auto.
  rewrite <- M2 at 2. apply (proj1 (C53_brighter_is_smaller _ _)). lra.
Qed.
(** "All light curves in a periodic model must be sampled at the same times": with MJD times the comparison tolerates half a day, and the
    second filter then drops to the baseline during a part of every cycle although its curve is constant. *)
Theorem C48_periodic_sampling_refuted : exists i lc b' x, make_lc i 0 true false None = Ok (lc, b') /\
  data_of i "g" = Some [(60000, 1); (60001, 1)] /\ data_of i "r" = Some [(60000 + 1 / 2, 1); (60001 + 1 / 2, 1)] /\ flux_at lc "r" 0 x /\ x = 0.
Proof.
  set (i := LDict [("g", mkTab 2 [(60000, 1); (60001, 1)]); ("r", mkTab 2 [(60000 + 1 / 2, 1); (60001 + 1 / 2, 1)])]).
  assert (A1 : forall a b, Rabs (a - b) <= 1 / 2 -> 60000 <= b -> isclose a b = true).
  { intros a b H1 H2. unfold isclose. apply rleb_t. rewrite (Rabs_right b) by lra. apply Rle_trans with (1 / 10 ^ 5 * 60000); [simpl; lra|].
    apply Rle_trans with (1 / 10 ^ 5 * b); [apply Rmult_le_compat_l; lra|]. assert (0 < 1 / 10 ^ 8) by (apply Rdiv_lt_0_compat; [lra|apply pow_lt; lra]). lra. }
  assert (A2 : isclose 1 1 = true). { unfold isclose. apply rleb_t. rewrite Rminus_diag_eq, Rabs_R0, Rabs_R1 by auto. lra. }
  assert (A3 : isclose (60000 - 0) 0 = false). { unfold isclose. apply rleb_f. rewrite !Rminus_0_r, Rabs_R0, Rabs_right by lra. simpl. lra. }
  assert (RA : forall x, -(1/2) <= x <= 1/2 -> Rabs x <= 1 / 2) by (intros; apply Rabs_le; lra).
  assert (E : exists lc b', make_lc i 0 true false None = Ok (lc, b')).
  { unfold make_lc, i, lc_parse. cbn [bind]. unfold check_curves, check_curve. cbn [fold_res snd fst tb_cols tb_rows xs map diffs forallb Nat.eqb orb negb]. rd. cbn [andb negb bind app].
    unfold validate_periodicity. cbn [map snd length Nat.ltb Nat.leb forallb]. unfold allclose. cbn [xs map length Nat.eqb combine forallb fst snd].
    unfold first_y, last_y. cbn [hd last snd]. rewrite A2. rewrite !A1 by (try (apply RA); lra). cbn [andb negb]. unfold last_x, first_x. cbn [last hd fst].
    rd. rewrite A3. replace (Reqb 0 0) with true by (symmetry; apply Reqb_true; auto). cbn [negb bind fst snd has_rows map forallb length Nat.eqb andb shift]. eauto. }
  destruct E as (lc & b' & E). exists i, lc, b', 0. split; auto. split; [reflexivity|]. split; [reflexivity|]. split; [|reflexivity].
  unfold flux_at. destruct (made_value _ _ _ _ _ _ _ "r" _ [0] E eq_refl) as (base & -> & ->).
  destruct (make_lc_inv _ _ _ _ _ _ _ E) as (d & cs & HP & HC & _ & (p & HV & EP) & _).
  assert (T : lc_t0 lc = 60000 /\ 0 < p).
  { destruct (validate_periodicity_inv _ _ _ _ _ HV) as (f0 & c0 & rest & EC & _ & _ & PP & _ & [(X & _)|(_ & _ & X & _)]).
    - simpl in HP. inversion HP; subst d. rewrite EC in HC. inversion HC as [|a b l l' [Y1 Y2] Y3 Y4 Y5]; clear HC. simpl in Y2. apply check_inv in Y2. destruct Y2 as (_ & _ & Y2). simpl in Y2. subst c0. unfold first_x in X. simpl in X. congruence.
    - simpl in HP. inversion HP; subst d. rewrite EC in HC. inversion HC as [|a b l l' [Y1 Y2] Y3 Y4 Y5]; clear HC. simpl in Y2. apply check_inv in Y2. destruct Y2 as (_ & _ & Y2). simpl in Y2. subst c0. unfold first_x in X. simpl in X. split; auto. lra. }
  destruct T as (T & PP). unfold wrapped. rewrite EP, T. unfold first_x, last_x. cbn [map tb_rows hd last fst snd]. rewrite (Rmod_small 0 p) by lra. rd. cbn [andb as_flux]. reflexivity.
Qed.
(** Documented input 1), a LightcurveData object, is refused. *)
Theorem C48_lightcurvedata_input_refuted : forall t0 periodic mags baseline, make_lc LOther t0 periodic mags baseline = Err TypeError.
Proof. reflexivity. Qed.
(** A periodic example. *)
Example C48_periodic_example : exists i lc b', make_lc i 60000 true false None = Ok (lc, b') /\ lc_period lc = Some 2 /\ lc_t0 lc = 60000 /\
  data_of i "g" = Some [(60000, 1); (60001, 3); (60002, 1)] /\ (forall k : Z, flux_at lc "g" (1 + IZR k * 2) 3).
Proof.
  set (i := LDict [("g", mkTab 2 [(60000, 1); (60001, 3); (60002, 1)])]).
  assert (A0 : forall a, isclose a a = true). { intros a. unfold isclose. apply rleb_t. rewrite Rminus_diag_eq, Rabs_R0 by auto. pose proof (Rabs_pos a). lra. }
  assert (E : exists lc b', make_lc i 60000 true false None = Ok (lc, b') /\ lc_period lc = Some 2 /\ lc_t0 lc = 60000).
  { unfold make_lc, i, lc_parse. cbn [bind]. unfold check_curves, check_curve. cbn [fold_res snd fst tb_cols tb_rows xs map diffs forallb Nat.eqb orb negb]. rd. cbn [andb negb bind app].
    unfold validate_periodicity. cbn [map snd length Nat.ltb Nat.leb forallb]. unfold allclose. cbn [xs map length Nat.eqb combine forallb fst snd].
    unfold first_y, last_y. cbn [hd last snd]. rewrite !A0. cbn [andb negb]. unfold last_x, first_x. cbn [last hd fst].
    rd. replace (60000 - 60000) with 0 by ring. rewrite A0. cbn [negb bind fst snd has_rows map forallb length Nat.eqb andb shift]. do 2 eexists. split; [reflexivity|].
    cbn [lc_period lc_t0]. split; auto. f_equal. lra. }
  destruct E as (lc & b' & E & P & T). exists i, lc, b'. do 4 (split; auto). intros k. unfold flux_at.
  destruct (C48_defined _ _ _ _ _ _ _ "g" [1 + IZR k * 2] E) as [_ X]. destruct (X _ eq_refl) as (out & EO & LO). rewrite EO.
  pose proof (C48_periodic_at_data i 60000 false None lc b' "g" [(60000, 1); (60001, 3); (60002, 1)] 2 60001 3 k [1 + IZR k * 2] 0 out E P eq_refl) as Y.
  unfold last_x, first_x in Y. simpl in Y. rewrite T in Y. destruct out as [|o [|]]; try discriminate. simpl in Y. f_equal. f_equal.
  assert (Z : Some o = Some 3). { apply Y; auto; try lra. f_equal. ring. } congruence.
Qed.
