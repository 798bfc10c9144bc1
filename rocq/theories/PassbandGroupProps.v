(** Properties C32-C33: name resolution and wavelength bookkeeping of a PassbandGroup. *)
From Coq Require Import Reals String List Bool Arith ZArith Lia Lra Permutation.
From Verif Require Import Base BaseFacts RealBase PassbandModel PassbandProofs PassbandProps.
Import ListNotations.
Open Scope R_scope.

(** A group that a user can hold: built by the constructor, [add_passband] or
    [process_transmission_tables] from passbands made by the [Passband] constructor. *)
Definition built_band (p : passband) : Prop := exists t s f d q u, pb_make t s f d q u = Ok p.
Inductive built : pgroup -> Prop :=
| built_make : forall l fs g, Forall built_band l -> pg_make l fs = Ok g -> built g
| built_add : forall g p g', built g -> built_band p -> pg_add g p = Ok g' -> built g'
| built_process : forall g d q g', built g -> pg_process g d q = Ok g' -> built g'.

(** The passbands of a group, as iterating over the group yields them. *)
Definition members (g : pgroup) : list passband := map snd (pg_bands g).

(** ** Invariants *)
Definition keyed (b : dict passband) : Prop := NoDup (dkeys b) /\ Forall (fun fb => fst fb = pb_full (snd fb)) b.
Definition ok_waves (p : passband) : Prop := increasing (pb_waves p) /\ (2 <= length (pb_table p))%nat.

Lemma update_inv : forall b g, pg_update b = Ok g ->
  pg_bands g = b /\ pg_waves g = merge_waves b /\ pg_names g = filter_names b.
Proof.
  intros b g H. unfold pg_update in H. destruct (fold_res _ _ b); [|discriminate]. simpl in H. inversion H; subst; auto.
Qed.
Lemma dset_Forall : forall V (P : string * V -> Prop) k v d, Forall P d -> P (k, v) -> Forall P (dset k v d).
Proof.
  induction d as [|[k' v'] d IH]; intros HF HP; simpl; auto. inversion HF; subst.
  destruct (String.eqb k k') eqn:E; constructor; auto. apply String.eqb_eq in E. now subst.
Qed.
Lemma collect_from : forall l acc, keyed acc -> keyed (fold_left (fun a p => dset (pb_full p) p a) l acc).
Proof.
  induction l as [|p l IH]; intros acc H; simpl; auto. apply IH. destruct H as [H1 H2]. split.
  - now apply NoDup_dset.
  - now apply dset_Forall.
Qed.
Lemma collect_keyed : forall l, keyed (collect l).
Proof. intros. apply collect_from. split; constructor. Qed.
Lemma collect_from_Forall : forall (P : passband -> Prop) l acc, Forall P l -> Forall (fun fb => P (snd fb)) acc ->
  Forall (fun fb => P (snd fb)) (fold_left (fun a p => dset (pb_full p) p a) l acc).
Proof.
  induction l as [|p l IH]; intros acc H1 H2; simpl; auto. inversion H1; subst. apply IH; auto. apply dset_Forall; auto.
Qed.
(** Which bands a filter list keeps. *)
Definition wanted (fs : list string) (fb : string * passband) : bool :=
  (smem (fst fb) fs || smem (pb_filter (snd fb)) fs)%bool.
Lemma prune_kept_from : forall fs b kept rem, fst (fold_left (fun st fb =>
      let '(kept, remaining) := st in
      if smem (fst fb) fs then (kept ++ [fb], filter (fun x => negb (String.eqb x (fst fb))) remaining)
      else if smem (pb_filter (snd fb)) fs
           then (kept ++ [fb], filter (fun x => negb (String.eqb x (pb_filter (snd fb)))) remaining)
           else (kept, remaining)) b (kept, rem)) = kept ++ filter (wanted fs) b.
Proof.
  induction b as [|fb b IH]; intros kept rem; simpl; [now rewrite app_nil_r|]. unfold wanted at 1.
  destruct (smem (fst fb) fs); simpl; [rewrite IH, <- app_assoc; reflexivity|].
  destruct (smem (pb_filter (snd fb)) fs); rewrite IH; auto. now rewrite <- app_assoc.
Qed.
Lemma prune_kept : forall b fs, fst (prune b fs) = filter (wanted fs) b.
Proof. intros. unfold prune. apply (prune_kept_from fs b [] fs). Qed.
Lemma filter_keyed : forall f b, keyed b -> keyed (filter f b).
Proof.
  intros f b [H1 H2]. split.
  - clear H2. induction b as [|[k v] b IH]; simpl in *; auto. inversion H1; subst.
    destruct (f (k, v)); auto. simpl. constructor; auto. intros HI. apply H2. unfold dkeys in *.
    rewrite in_map_iff in *. destruct HI as (x & E & HI). apply filter_In in HI. exists x. tauto.
  - clear H1. rewrite Forall_forall in *. intros x Hx. apply filter_In in Hx. apply H2. tauto.
Qed.
Lemma make_bands : forall l fs g, pg_make l fs = Ok g ->
  pg_bands g = match fs with None => collect l | Some fs => filter (wanted fs) (collect l) end /\ pg_update (pg_bands g) = Ok g.
Proof.
  intros l fs g H. unfold pg_make in H. destruct l as [|p l]; [discriminate|]. destruct fs as [fs|].
  - pose proof (prune_kept (collect (p :: l)) fs) as PK. destruct (prune (collect (p :: l)) fs) as [kept rem]. simpl in PK.
    destruct (negb (length rem =? 0)%nat); [discriminate|]. destruct (update_inv _ _ H) as (E & _). rewrite E. subst kept. auto.
  - destruct (update_inv _ _ H) as (E & _). rewrite E. auto.
Qed.
Lemma process_fold : forall (d q : option R) (b acc b' : dict passband), fold_res (fun acc fb => bind (pb_process (snd fb) d q) (fun p => Ok (acc ++ [(fst fb, p)]))) acc b = Ok b' ->
  exists b2, b' = acc ++ b2 /\ Forall2 (fun fb fb' => fst fb = fst fb' /\ pb_process (snd fb) d q = Ok (snd fb')) b b2.
Proof.
  induction b as [|fb b IH]; intros acc b' H; simpl in H.
  - inversion H; subst. exists []. rewrite app_nil_r. auto.
  - destruct (pb_process (snd fb) d q) as [p|] eqn:E; [|discriminate]. simpl in H.
    destruct (IH _ _ H) as (b2 & -> & F). exists ((fst fb, p) :: b2). rewrite <- app_assoc. simpl. split; auto.
Qed.
Lemma process_keyed : forall d q (b b2 : dict passband), Forall2 (fun fb fb' => fst fb = fst fb' /\ pb_process (snd fb) d q = Ok (snd fb')) b b2 ->
  keyed b -> keyed b2.
Proof.
  intros d q b b2 F [H1 H2]. split.
  - assert (E : dkeys b2 = dkeys b). { clear H1 H2. induction F as [|x y b b2 [E _] F IH]; simpl; auto. f_equal; auto. }
    now rewrite E.
  - clear H1. induction F as [|x y b b2 [E P] F IH]; constructor; inversion H2; subst; auto.
    rewrite <- E, H1. unfold pb_process in P. destruct (process_table _ d q); [|discriminate]. simpl in P. inversion P. reflexivity.
Qed.
Lemma loaded_increasing : forall p, built_band p -> increasing (xs (pb_loaded p)).
Proof.
  intros p (t & s & f & d & q & u & H). destruct (make_inv _ _ _ _ _ _ _ H) as (t0 & V & P & _).
  destruct (validate_inv _ _ _ V) as (_ & HI & _). unfold pb_make in H. rewrite V in H. simpl in H. rewrite P in H.
  simpl in H. inversion H; subst. simpl. auto.
Qed.
Definition good_band (p : passband) : Prop := increasing (xs (pb_loaded p)) /\ ok_waves p.
Lemma built_good : forall p, built_band p -> good_band p.
Proof.
  intros p B. split; [now apply loaded_increasing|]. destruct B as (t & s & f & d & q & u & H).
  destruct (C65_accepted_tables_increase _ _ _ _ _ _ _ H) as (_ & A & B). split; auto.
Qed.
Lemma process_good : forall p d q p', good_band p -> pb_process p d q = Ok p' -> good_band p'.
Proof.
  intros p d q p' [H1 _] H. unfold pb_process in H. destruct (process_table (pb_loaded p) d q) as [t|] eqn:E; [|discriminate].
  simpl in H. inversion H; subst. split; simpl; auto. destruct (process_increasing _ _ _ _ H1 E). split; auto.
Qed.
Lemma built_inv : forall g, built g ->
  keyed (pg_bands g) /\ Forall (fun fb => good_band (snd fb)) (pg_bands g) /\ pg_update (pg_bands g) = Ok g.
Proof.
  induction 1 as [l fs g HF HM|g p g' HG IH HP HA|g d q g' HG IH HP].
  - destruct (make_bands _ _ _ HM) as [E HU]. split; [|split]; auto; rewrite E.
    + destruct fs; [apply filter_keyed|]; apply collect_keyed.
    + assert (A : Forall (fun fb => good_band (snd fb)) (collect l)).
      { apply collect_from_Forall; auto. eapply Forall_impl; [|exact HF]. apply built_good. }
      destruct fs; auto. rewrite Forall_forall in *. intros x Hx. apply filter_In in Hx. apply A. tauto.
  - destruct IH as ((K1 & K2) & A & _). unfold pg_add in HA. destruct (update_inv _ _ HA) as (E & _). rewrite E.
    split; [|split]; auto.
    + split; [now apply NoDup_dset|now apply dset_Forall].
    + apply dset_Forall; auto. simpl. now apply built_good.
  - destruct IH as (K & A & _). unfold pg_process in HP.
    destruct (fold_res _ [] (pg_bands g)) as [b|] eqn:EF; [|discriminate]. simpl in HP.
    destruct (process_fold _ _ _ _ _ EF) as (b2 & -> & F). simpl in HP. destruct (update_inv _ _ HP) as (E & _). rewrite E.
    split; [|split]; auto.
    + eapply process_keyed; eauto.
    + clear - F A. induction F as [|x y b b2 [_ P] F IH]; constructor; inversion A; subst; auto. eapply process_good; eauto.
Qed.

(** The filter-name index lists the bands with that filter name, in order. *)
Definition with_filter (f : string) (b : dict passband) : dict passband := filter (fun fb => String.eqb (pb_filter (snd fb)) f) b.
Lemma filter_names_get : forall f b, dget f (filter_names b) =
  match with_filter f b with [] => None | l => Some (map fst l) end.
Proof.
  intros f b. induction b as [|fb b IH] using rev_ind; auto.
  unfold filter_names in *. rewrite fold_left_app. cbn [fold_left].
  match type of IH with dget f (fold_left ?F b []) = _ => set (acc := fold_left F b []) in * end. unfold with_filter. rewrite filter_app. fold (with_filter f b). cbn [filter].
  destruct (String.eqb (pb_filter (snd fb)) f) eqn:E.
  - apply String.eqb_eq in E. rewrite E. rewrite IH. destruct (with_filter f b) as [|x l]; simpl.
    + now rewrite dget_dset_same.
    + rewrite dget_dset_same. now rewrite map_app.
  - apply String.eqb_neq in E. rewrite app_nil_r.
    destruct (dget (pb_filter (snd fb)) acc); rewrite dget_dset_other by congruence; auto.
Qed.
Lemma filter_names_mem : forall f b, dmem f (filter_names b) = existsb (fun fb => String.eqb (pb_filter (snd fb)) f) b.
Proof.
  intros. unfold dmem. rewrite filter_names_get. unfold with_filter. induction b as [|fb b IH]; simpl; auto.
  destruct (String.eqb (pb_filter (snd fb)) f); auto.
Qed.
Lemma with_filter_members : forall g f, with_filter f (pg_bands g) = filter (fun fb => String.eqb (pb_filter (snd fb)) f) (pg_bands g).
Proof. reflexivity. Qed.
Lemma keyed_get : forall b p, keyed b -> In p (map snd b) -> dget (pb_full p) b = Some p.
Proof.
  intros b p [H1 H2] HI. apply in_map_iff in HI. destruct HI as ([k v] & E & HI). simpl in E; subst v.
  rewrite Forall_forall in H2. specialize (H2 _ HI). simpl in H2. subst k. now apply In_dget.
Qed.

(** ** C32 *)
(** The specification: a name denotes passband [p] if it is its full name, or if no member has that
    full name and [p] is the only member with that filter name. *)
Definition denotes (g : pgroup) (name : string) (p : passband) : Prop :=
  In p (members g) /\
  (pb_full p = name \/
   (~ In name (map pb_full (members g)) /\ pb_filter p = name /\
    forall p', In p' (members g) -> pb_filter p' = name -> p' = p)).

Lemma full_names : forall b, Forall (fun fb => fst fb = pb_full (snd fb)) b -> map pb_full (map snd b) = dkeys b.
Proof. induction 1 as [|fb b E H IH]; simpl; auto. unfold dkeys in *. rewrite IH. f_equal. auto. Qed.
Theorem C32_getitem : forall g name, built g ->
  (forall p, denotes g name p -> pg_getitem g name = Ok p) /\
  ((forall p, ~ denotes g name p) -> pg_getitem g name = Err KeyError).
Proof.
  intros g name B. destruct (built_inv g B) as ((K1 & K2) & _ & HU). destruct (update_inv _ _ HU) as (_ & _ & EN).
  unfold pg_getitem. rewrite EN, filter_names_get.
  destruct (dget name (pg_bands g)) as [p0|] eqn:ED.
  - assert (HI : In p0 (members g) /\ pb_full p0 = name).
    { apply dget_In in ED. rewrite Forall_forall in K2. split; [apply in_map_iff; exists (name, p0); auto|]. symmetry. apply (K2 _ ED). }
    split.
    + intros p [HP [HF|[HN _]]].
      * rewrite <- HF in ED. rewrite (keyed_get _ p) in ED; [congruence|split; auto|auto].
      * destruct HN. destruct HI as [A <-]. now apply in_map.
    + intros HN. destruct (HN p0). split; [tauto|]. left. tauto.
  - apply dget_None in ED. assert (HF : ~ In name (map pb_full (members g))) by (unfold members; rewrite full_names; auto).
    destruct (with_filter name (pg_bands g)) as [|[k p1] l] eqn:EW.
    + split; auto. intros p [HP [E|[_ [E _]]]].
      * destruct HF. rewrite <- E. now apply in_map.
      * exfalso. unfold members in HP. apply in_map_iff in HP. destruct HP as ([k v] & E' & HP). simpl in E'; subst v.
        assert (In (k, p) (with_filter name (pg_bands g))) by (apply filter_In; split; auto; apply String.eqb_eq; auto).
        rewrite EW in H. destruct H.
    + assert (M1 : In (k, p1) (pg_bands g) /\ pb_filter p1 = name).
      { assert (In (k, p1) (with_filter name (pg_bands g))) as X by (rewrite EW; left; auto). apply filter_In in X.
        destruct X as [X Y]. split; auto. now apply String.eqb_eq. }
      destruct M1 as [M1 M2]. assert (G1 : dget k (pg_bands g) = Some p1) by (apply In_dget; auto).
      destruct l as [|[k2 p2] l]; cbn [map length Nat.ltb Nat.leb fst].
      * rewrite G1. assert (D1 : denotes g name p1).
        { split; [apply in_map_iff; exists (k, p1); auto|]. right. split; auto. split; auto.
          intros p' HP E. apply in_map_iff in HP. destruct HP as ([k' v] & E' & HP). simpl in E'; subst v.
          assert (In (k', p') (with_filter name (pg_bands g))) as X by (apply filter_In; split; auto; apply String.eqb_eq; auto).
          rewrite EW in X. destruct X as [X|[]]. now inversion X. }
        split; [|intros HN; now destruct (HN p1)].
        intros p [HP [E|[_ [E _]]]].
        -- destruct HF. rewrite <- E. now apply in_map.
        -- f_equal. symmetry. destruct D1 as [_ [E'|(_ & _ & U)]]; [|now apply U].
           destruct HF. rewrite <- E'. apply in_map. apply in_map_iff. exists (k, p1); auto.
      * split; auto. intros p [HP [E|[_ [E U]]]]; exfalso.
        -- destruct HF. rewrite <- E. now apply in_map.
        -- assert (M3 : In (k2, p2) (pg_bands g) /\ pb_filter p2 = name).
           { assert (In (k2, p2) (with_filter name (pg_bands g))) as X by (rewrite EW; right; left; auto). apply filter_In in X.
             destruct X as [X Y]. split; auto. now apply String.eqb_eq. }
           destruct M3 as [M3 M4].
           assert (p1 = p) by (apply U; auto; apply in_map_iff; exists (k, p1); auto).
           assert (p2 = p) by (apply U; auto; apply in_map_iff; exists (k2, p2); auto). subst p1. subst p2.
           assert (k = k2) by (rewrite Forall_forall in K2; pose proof (K2 _ M1); pose proof (K2 _ M3); simpl in *; congruence). subst k2.
           assert (ND : NoDup (with_filter name (pg_bands g))).
           { apply NoDup_filter. unfold dkeys in K1. now apply NoDup_map_inv in K1. }
           rewrite EW in ND. inversion ND as [|? ? X _]; subst. apply X. left; auto.
Qed.
(** [name in group] and the observation mask. *)
Definition known (g : pgroup) (name : string) : Prop :=
  exists p, In p (members g) /\ (pb_full p = name \/ pb_filter p = name).
Theorem C32_contains : forall g name, built g -> (pg_contains g name = true <-> known g name).
Proof.
  intros g name B. destruct (built_inv g B) as ((K1 & K2) & _ & HU). destruct (update_inv _ _ HU) as (_ & _ & EN).
  unfold pg_contains. rewrite orb_true_iff, EN, filter_names_mem, dmem_true. rewrite <- (full_names _ K2). unfold known, members. split.
  - intros [H|H].
    + apply in_map_iff in H. destruct H as (p & E & H). eauto.
    + apply existsb_exists in H. destruct H as ([k p] & H & E). apply String.eqb_eq in E. exists p. split; auto.
      apply in_map_iff. exists (k, p); auto.
  - intros (p & HP & [E|E]).
    + left. rewrite <- E. now apply in_map.
    + right. apply in_map_iff in HP. destruct HP as (fb & E' & HP). apply existsb_exists. exists fb. subst. split; auto. apply String.eqb_refl.
Qed.
Theorem C32_mask : forall g names i name, built g -> nth_error names i = Some name ->
  exists b, nth_error (pg_mask g names) i = Some b /\ (b = true <-> known g name).
Proof.
  intros g names i name B H. unfold pg_mask. rewrite nth_error_map, H. cbn [option_map]. eexists. split; [reflexivity|].
  rewrite <- (C32_contains g name B). unfold pg_contains. rewrite !orb_true_iff, !dmem_true, !smem_In. tauto.
Qed.
Theorem C32_mask_length : forall g names, length (pg_mask g names) = length names.
Proof. intros. apply map_length. Qed.
(** What a successful look-up returns always is "in" the group ... *)
Theorem C32_getitem_contains : forall g name p, built g -> pg_getitem g name = Ok p -> pg_contains g name = true.
Proof.
  intros g name p B H. unfold pg_contains, pg_getitem in *. destruct (dget name (pg_bands g)) eqn:E.
  - unfold dmem. now rewrite E.
  - unfold dmem. rewrite E. destruct (dget name (pg_names g)); [auto|discriminate].
Qed.
(** ... and, if the name is unambiguous, the other way round. *)
Theorem C32_contains_getitem : forall g name, built g -> pg_contains g name = true ->
  (forall p1 p2, In p1 (members g) -> In p2 (members g) -> pb_filter p1 = name -> pb_filter p2 = name -> p1 = p2) ->
  exists p, pg_getitem g name = Ok p /\ denotes g name p.
Proof.
  intros g name B HC HU. apply (C32_contains g name B) in HC. destruct HC as (p & HP & HN).
  destruct (in_dec string_dec name (map pb_full (members g))) as [HI|HI].
  - apply in_map_iff in HI. destruct HI as (p' & E & HI). exists p'. assert (denotes g name p') by (split; auto).
    split; auto. now apply (C32_getitem g name B).
  - destruct HN as [HN|HN]; [destruct HI; rewrite <- HN; now apply in_map|].
    exists p. assert (denotes g name p) by (split; auto; right; split; auto). split; auto. now apply (C32_getitem g name B).
Qed.
Lemma band_indices_ok : forall grid w, w <> [] -> exists ix, band_indices grid w = Ok ix.
Proof. intros grid [|a w] H; [congruence|]. unfold band_indices. destruct (list_eqb _ _); eauto. Qed.
Lemma waves_ne : forall p, ok_waves p -> pb_waves p <> [].
Proof. intros p [_ H]. unfold pb_waves, xs. destruct (pb_table p); simpl in *; [lia|congruence]. Qed.
Lemma update_ok : forall b, Forall (fun fb => good_band (snd fb)) b -> exists g, pg_update b = Ok g.
Proof.
  intros b H. unfold pg_update. set (grid := merge_waves b). clearbody grid.
  assert (X : forall acc, exists ix, fold_res (fun (acc : dict (list nat)) fb => bind (band_indices grid (pb_waves (snd fb))) (fun ix => Ok (dset (fst fb) ix acc))) acc b = Ok ix).
  { induction H as [|fb b [_ H] HF IH]; intros acc; simpl; eauto.
    destruct (band_indices_ok grid (pb_waves (snd fb)) (waves_ne _ H)) as (ix & ->). simpl. apply IH. }
  destruct (X []) as (ix & ->). simpl. eauto.
Qed.
(** The [filters] argument keeps exactly the members whose full or filter name is listed. *)
Theorem C32_filters_keep : forall l fs g p, Forall built_band l -> pg_make l (Some fs) = Ok g ->
  exists g0, pg_make l None = Ok g0 /\
  (In p (members g) <-> In p (members g0) /\ (In (pb_full p) fs \/ In (pb_filter p) fs)).
Proof.
  intros l fs g p HB HM. destruct (make_bands _ _ _ HM) as [E _].
  assert (A : Forall (fun fb => good_band (snd fb)) (collect l)).
  { apply collect_from_Forall; auto. eapply Forall_impl; [|exact HB]. apply built_good. }
  destruct (update_ok _ A) as (g0 & H0). exists g0. split; [unfold pg_make in *; destruct l; [discriminate|auto]|].
  destruct (update_inv _ _ H0) as (E0 & _). unfold members. rewrite E, E0. destruct (collect_keyed l) as [_ K2].
  rewrite Forall_forall in K2. rewrite !in_map_iff. unfold wanted. split.
  - intros (fb & EP & HI). apply filter_In in HI. destruct HI as [HI HW]. split; eauto.
    apply orb_true_iff in HW. rewrite !smem_In in HW. rewrite (K2 _ HI) in HW. now subst p.
  - intros ((fb & EP & HI) & HW). exists fb. split; auto. apply filter_In. split; auto. apply orb_true_iff.
    rewrite !smem_In. rewrite (K2 _ HI). now subst p.
Qed.

(** A requested name that no member has makes the constructor fail. *)
Lemma prune_rem_from : forall fs (b : dict passband) kept rem x, ~ In x (dkeys b) -> ~ In x (map (fun fb => pb_filter (snd fb)) b) -> In x rem ->
  In x (snd (fold_left (fun st fb =>
      let '(kept, remaining) := st in
      if smem (fst fb) fs then (kept ++ [fb], filter (fun x => negb (String.eqb x (fst fb))) remaining)
      else if smem (pb_filter (snd fb)) fs
           then (kept ++ [fb], filter (fun x => negb (String.eqb x (pb_filter (snd fb)))) remaining)
           else (kept, remaining)) b (kept, rem))).
Proof.
  induction b as [|fb b IH]; intros kept rem x H1 H2 H3; simpl in *; auto.
  destruct (smem (fst fb) fs); [|destruct (smem (pb_filter (snd fb)) fs)]; apply IH; auto; apply filter_In; split; auto;
    apply negb_true_iff, String.eqb_neq; intuition congruence.
Qed.
Theorem C32_filters_missing : forall l fs name, Forall built_band l -> In name fs ->
  (forall p, In p l -> pb_full p <> name /\ pb_filter p <> name) -> pg_make l (Some fs) = Err ValueError.
Proof.
  intros l fs name HB HI HN. destruct l as [|p0 l0] eqn:EL; auto. rewrite <- EL in *. unfold pg_make.
  destruct (collect_keyed l) as [_ K2].
  assert (A : Forall (fun fb => In (snd fb) l) (collect l)).
  { apply (collect_from_Forall (fun p => In p l)); auto. apply Forall_forall. auto. }
  assert (X : In name (snd (prune (collect l) fs))).
  { unfold prune. rewrite Forall_forall in A, K2. apply prune_rem_from; auto.
    - intros H. unfold dkeys in H. apply in_map_iff in H. destruct H as (fb & E & H). rewrite (K2 _ H) in E.
      destruct (HN _ (A _ H)). congruence.
    - intros H. apply in_map_iff in H. destruct H as (fb & E & H). destruct (HN _ (A _ H)). congruence. }
  destruct (prune (collect l) fs) as [kept rem]. simpl in X. destruct rem; [destruct X|]. destruct l; reflexivity.
Qed.

(** ** Counterexamples of C32 *)
Definition two_rows (s f : string) (x1 x2 : R) : result passband :=
  pb_make [(x1, 1); (x2, 1)] s f None None Angstrom.
Lemma two_rows_ok : forall s f x1 x2, 0 < x1 < x2 -> exists p, two_rows s f x1 x2 = Ok p /\
  pb_survey p = s /\ pb_filter p = f /\ pb_waves p = [x1; x2].
Proof.
  intros s f x1 x2 H. destruct (C29_defined [(x1, 1); (x2, 1)] s f) as (p & E).
  - repeat constructor; simpl; lra.
  - simpl; lra.
  - simpl; lia.
  - left; simpl; lra.
  - exists p. split; auto. unfold pb_make in E. destruct (validate _ Angstrom) as [t0|] eqn:V; [|discriminate].
    unfold validate in V. destruct (existsb _ _); [discriminate|]. destruct (existsb _ _); [discriminate|]. injection V as <-.
    cbn [bind] in E. unfold process_table in E. cbn [interpolate_table trim_table bind] in E.
    destruct (normalize_table _) as [t1|] eqn:N; [|discriminate]. cbn [bind] in E. injection E as <-. simpl.
    unfold pb_waves. simpl. rewrite (normalize_xs _ _ N). auto.
Qed.
Lemma two_rows_built : forall s f x1 x2 p, two_rows s f x1 x2 = Ok p -> built_band p.
Proof. intros. do 6 eexists. exact H. Qed.


(** ** C33 *)
(** All wavelengths of all members. *)
Definition all_waves (g : pgroup) : list R := flat_map pb_waves (members g).
Definition separated (l : list R) : Prop := forall a b, In a l -> In b l -> a < b -> threshold <= b - a.

Lemma threshold_pos : 0 < threshold.
Proof. unfold threshold. apply Rdiv_lt_0_compat; [lra|apply pow_lt; lra]. Qed.
Lemma separated_incl : forall l l', incl l' l -> separated l -> separated l'.
Proof. intros l l' HI H a b Ha Hb. apply H; apply HI; auto. Qed.
Lemma keep_gaps_spec : forall l a, nondecreasing (a :: l) -> separated (a :: l) ->
  increasing (a :: keep_gaps a l) /\ (forall x, In x (a :: keep_gaps a l) <-> In x (a :: l)).
Proof.
  induction l as [|b l IH]; intros a HN HS; [simpl; tauto|].
  pose proof threshold_pos as TP. destruct HN as [HAB HN].
  assert (HS' : separated (b :: l)) by (eapply separated_incl; [|exact HS]; intros x Hx; right; auto).
  destruct (IH b HN HS') as [I1 I2]. cbn [keep_gaps].
  destruct (Rle_lt_or_eq_dec a b HAB) as [L|E].
  - replace (Rleb threshold (b - a)) with true by (symmetry; apply Rleb_true; apply HS; simpl; auto).
    split; [split; auto|]. intros x. specialize (I2 x). change (In x (a :: b :: keep_gaps b l)) with (a = x \/ In x (b :: keep_gaps b l)).
    change (In x (a :: b :: l)) with (a = x \/ In x (b :: l)). tauto.
  - subst b. replace (Rleb threshold (a - a)) with false by (symmetry; apply Rleb_false; lra). split; auto.
    intros x. rewrite I2. simpl. tauto.
Qed.
Lemma merge_spec : forall b, separated (flat_map (fun fb => pb_waves (snd fb)) b) ->
  increasing (merge_waves b) /\ (forall x, In x (merge_waves b) <-> In x (flat_map (fun fb => pb_waves (snd fb)) b)).
Proof.
  intros b HS. unfold merge_waves. set (u := flat_map _ b) in *. clearbody u.
  pose proof (sortR_sorted u) as SO. pose proof (fun x => sortR_In x u) as SI.
  assert (SS : separated (sortR u)) by (eapply separated_incl; [|exact HS]; intros x; apply SI).
  destruct (sortR u) as [|a l].
  - split; [exact I|]. intros x. rewrite <- SI. tauto.
  - destruct (keep_gaps_spec l a SO SS) as [H1 H2]. split; auto. intros x. rewrite H2. apply SI.
Qed.
Lemma take_cols_seq : forall (r : list R) k lo, (lo + k <= length r)%nat -> take_cols r (seq lo k) = Ok (firstn k (skipn lo r)).
Proof.
  intros r k. induction k as [|k IH]; intros lo H; [now rewrite firstn_O|]. cbn [seq take_cols].
  destruct (nth_error r lo) as [v|] eqn:E; [|apply nth_error_None in E; lia]. rewrite IH by lia. cbn [bind].
  assert (X : skipn lo r = v :: skipn (S lo) r).
  { clear - E. revert r E. induction lo as [|lo IH]; intros [|x r] E; try discriminate; simpl in *; [now inversion E|]. now rewrite (IH _ E). }
  rewrite X. reflexivity.
Qed.
Lemma list_eqb_eq : forall a b, list_eqb a b = true -> a = b.
Proof.
  induction a as [|x a IH]; intros [|y b] H; simpl in *; try discriminate; auto. apply andb_prop in H. destruct H as [H1 H2].
  apply Reqb_true in H1. f_equal; auto.
Qed.
Lemma band_indices_spec : forall grid w ix, increasing grid -> incl w grid -> band_indices grid w = Ok ix ->
  take_cols grid ix = Ok w /\ Forall (fun i => (i < length grid)%nat) ix.
Proof.
  intros grid w ix HG HI H. unfold band_indices in H. destruct w as [|w0 w']; [discriminate|]. set (w := w0 :: w') in *.
  assert (IX : forall v, In v w -> (ss_left grid v < length grid)%nat /\ nth_error grid (ss_left grid v) = Some v).
  { intros v Hv. apply HI in Hv. apply In_nth_error in Hv. destruct Hv as (i & Hv). rewrite (ss_left_nth _ _ _ HG Hv).
    split; auto. apply nth_error_Some. congruence. }
  destruct (list_eqb _ w) eqn:E; injection H as <-.
  - apply list_eqb_eq in E.
    assert (HL : In (last w 0) w). { unfold w. clear. revert w0. induction w' as [|a w' IH]; intros w0; [left; auto|]. right. apply IH. }
    destruct (IX _ HL) as [B _]. split.
    + rewrite take_cols_seq; [f_equal; exact E|].
      assert (IX0 : (ss_left grid w0 < length grid)%nat) by (apply IX; left; auto). unfold w in *. simpl in *. lia.
    + apply Forall_forall. intros i Hi. apply in_seq in Hi. unfold w in *. simpl in *. lia.
  - split.
    + change (take_cols grid (map (ss_left grid) w) = Ok w). clear E HI. clearbody w. induction w as [|v w IH]; [reflexivity|]. cbn [map take_cols]. destruct (IX v (or_introl eq_refl)) as [_ ->].
      rewrite IH; auto. intros; apply IX; right; auto.
    + change (Forall (fun i => (i < length grid)%nat) (map (ss_left grid) w)). rewrite Forall_map. apply Forall_forall. intros v Hv. now apply IX.
Qed.
Lemma update_index : forall b g, pg_update b = Ok g -> NoDup (dkeys b) -> forall k p, dget k b = Some p ->
  exists ix, dget k (pg_index g) = Some ix /\ band_indices (merge_waves b) (pb_waves p) = Ok ix.
Proof.
  intros b g H ND. unfold pg_update in H. set (grid := merge_waves b) in *. clearbody grid.
  destruct (fold_res (S:=dict (list nat)) _ [] b) as [ixs|] eqn:EF; [|discriminate]. cbn [bind] in H. injection H as <-. cbn [pg_index].
  assert (X : forall (b : dict passband) acc ixs, NoDup (dkeys b) ->
    fold_res (fun (acc : dict (list nat)) fb => bind (band_indices grid (pb_waves (snd fb))) (fun ix => Ok (dset (fst fb) ix acc))) acc b = Ok ixs ->
    (forall k, ~ In k (dkeys b) -> dget k ixs = dget k acc) /\
    (forall k p, dget k b = Some p -> exists ix, dget k ixs = Some ix /\ band_indices grid (pb_waves p) = Ok ix)).
  { clear. induction b as [|[k0 p0] b IH]; intros acc ixs ND H; simpl in H.
    - inversion H; subst. split; [auto|discriminate].
    - inversion ND as [|? ? N1 N2]; subst. destruct (band_indices grid (pb_waves p0)) as [ix|] eqn:EB; [|discriminate]. simpl in H.
      destruct (IH _ _ N2 H) as [I1 I2]. split.
      + intros k Hk. rewrite I1 by (simpl in Hk; tauto). apply dget_dset_other. simpl in Hk. intuition.
      + intros k p Hk. simpl in Hk. destruct (String.eqb k k0) eqn:EK; [|now apply I2].
        apply String.eqb_eq in EK. subst k0. injection Hk as <-. exists ix. split; auto. rewrite I1 by auto. apply dget_dset_same. }
  intros k p Hk. destruct (X b [] ixs ND EF) as [_ I2]. now apply I2.
Qed.
Lemma all_waves_bands : forall g, all_waves g = flat_map (fun fb => pb_waves (snd fb)) (pg_bands g).
Proof. intros. unfold all_waves, members. induction (pg_bands g); simpl; congruence. Qed.

(** The group's grid is the sorted union of the members' grids. *)
Theorem C33_grid : forall g, built g -> separated (all_waves g) ->
  increasing (pg_waves g) /\ (forall x, In x (pg_waves g) <-> exists p, In p (members g) /\ In x (pb_waves p)).
Proof.
  intros g B HS. destruct (built_inv g B) as (_ & _ & HU). destruct (update_inv _ _ HU) as (_ & EW & _). rewrite EW.
  rewrite all_waves_bands in HS. destruct (merge_spec _ HS) as [H1 H2]. split; auto. intros x. rewrite H2, <- all_waves_bands.
  unfold all_waves. rewrite in_flat_map. tauto.
Qed.
(** Reading the group's grid at the positions recorded for a member gives the member's own
    wavelengths. *)
Theorem C33_indices : forall g p, built g -> separated (all_waves g) -> In p (members g) ->
  exists ix, dget (pb_full p) (pg_index g) = Some ix /\ take_cols (pg_waves g) ix = Ok (pb_waves p).
Proof.
  intros g p B HS HP. destruct (built_inv g B) as (K & _ & HU). pose proof (C33_grid g B HS) as [HI HE].
  destruct (update_index _ _ HU (proj1 K) (pb_full p) p (keyed_get _ _ K HP)) as (ix & E1 & E2). exists ix. split; auto.
  destruct (update_inv _ _ HU) as (_ & EW & _). rewrite <- EW in E2.
  apply (band_indices_spec _ _ _ HI) in E2; [tauto|]. intros x Hx. apply HE. eauto.
Qed.
Lemma take_cols_map : forall (f : R -> R) grid ix w, take_cols grid ix = Ok w -> take_cols (map f grid) ix = Ok (map f w).
Proof.
  induction ix as [|i ix IH]; intros w H; simpl in *; [inversion H; auto|]. rewrite nth_error_map.
  destruct (nth_error grid i) as [v|]; [|discriminate]. simpl. destruct (take_cols grid ix) as [vs|] eqn:E; [|discriminate].
  simpl in H. inversion H; subst. rewrite (IH vs eq_refl). reflexivity.
Qed.
Lemma take_cols_all_map : forall grid ix w (seds : list (R -> R)), take_cols grid ix = Ok w ->
  take_cols_all (map (fun f => map f grid) seds) ix = Ok (map (fun f => map f w) seds).
Proof.
  induction seds as [|f seds IH]; intros H; auto. cbn [map take_cols_all]. rewrite (take_cols_map f _ _ _ H). cbn [bind].
  now rewrite IH.
Qed.
(** Hence the group computes, for spectra sampled on its own grid, the same band fluxes as the member
    alone for the spectra sampled on the member's grid. *)
Theorem C33_bandflux : forall g p (seds : list (R -> R)), built g -> separated (all_waves g) -> In p (members g) ->
  pg_bandflux g (map (fun f => map f (pg_waves g)) seds) (pb_full p) =
  fluxes_to_bandflux p (map (fun f => map f (pb_waves p)) seds).
Proof.
  intros g p seds B HS HP. destruct (built_inv g B) as (K & _ & _). pose proof (keyed_get _ _ K HP) as G.
  destruct (C33_indices g p B HS HP) as (ix & E1 & E2). unfold pg_bandflux, pg_resolve.
  assert (M : dmem (pb_full p) (pg_bands g) = true) by (unfold dmem; now rewrite G). rewrite M. cbn [bind]. rewrite G, E1.
  now rewrite (take_cols_all_map _ _ _ seds E2).
Qed.
Theorem C33_short_name : forall g name p m, built g -> denotes g name p -> pg_bandflux g m name = pg_bandflux g m (pb_full p).
Proof.
  intros g name p m B D. destruct (built_inv g B) as (K & _ & HU). destruct (update_inv _ _ HU) as (_ & _ & EN).
  pose proof D as [HP D']. pose proof (keyed_get _ _ K HP) as G.
  destruct D' as [<-|(HN & HF & HUN)]; auto. unfold pg_bandflux. f_equal. unfold pg_resolve.
  replace (dmem (pb_full p) (pg_bands g)) with true by (unfold dmem; now rewrite G).
  destruct K as [K1 K2]. unfold members in HN. rewrite (full_names _ K2) in HN. apply dmem_false in HN. rewrite HN, EN, filter_names_get.
  destruct (with_filter name (pg_bands g)) as [|[k p1] l] eqn:EW.
  - exfalso. apply in_map_iff in HP. destruct HP as ([k v] & E' & HP). simpl in E'; subst v.
    assert (In (k, p) (with_filter name (pg_bands g))) as X by (apply filter_In; split; auto; apply String.eqb_eq; auto).
    rewrite EW in X. destruct X.
  - cbn [map fst]. assert (In (k, p1) (with_filter name (pg_bands g))) as X by (rewrite EW; left; auto). apply filter_In in X.
    destruct X as [X Y]. apply String.eqb_eq in Y. simpl in Y. f_equal. rewrite Forall_forall in K2. pose proof (K2 _ X) as E. simpl in E. rewrite E. f_equal.
    apply HUN; auto. apply in_map_iff. exists (k, p1); auto.
Qed.

(** ** Counterexamples *)
Lemma pair_group : forall p1 p2, built_band p1 -> built_band p2 -> pb_full p1 <> pb_full p2 ->
  exists g, built g /\ pg_bands g = [(pb_full p1, p1); (pb_full p2, p2)] /\ members g = [p1; p2].
Proof.
  intros p1 p2 B1 B2 N. assert (EC : collect [p1; p2] = [(pb_full p1, p1); (pb_full p2, p2)]).
  { unfold collect. simpl. destruct (String.eqb (pb_full p2) (pb_full p1)) eqn:E; auto. apply String.eqb_eq in E. congruence. }
  destruct (update_ok (collect [p1; p2])) as (g & HU).
  { rewrite EC. repeat constructor; simpl; now apply built_good. }
  destruct (update_inv _ _ HU) as (EB & _). exists g. split; [|split].
  - apply (built_make [p1; p2] None); [repeat constructor; auto|]. exact HU.
  - now rewrite EB.
  - unfold members. now rewrite EB, EC.
Qed.
Lemma flat_pair : forall s f x1 x2 p c, two_rows s f x1 x2 = Ok p -> pb_waves p = [x1; x2] -> fluxes_to_bandflux p [[c; c]] = Ok [c].
Proof.
  intros s f x1 x2 p c H HW. pose proof (C30_flat_partial _ _ _ _ _ _ _ c 1 H (le_n _) (or_introl eq_refl)) as X.
  unfold flat_matrix in X. rewrite HW in X. exact X.
Qed.
Ltac rdec := repeat match goal with
  | |- context[Rleb ?a ?b] => first [replace (Rleb a b) with true by (symmetry; apply Rleb_true; lra) | replace (Rleb a b) with false by (symmetry; apply Rleb_false; lra)]
  | |- context[Rltb ?a ?b] => first [replace (Rltb a b) with true by (symmetry; apply Rltb_true; lra) | replace (Rltb a b) with false by (symmetry; apply Rltb_false; lra)]
  | |- context[Reqb ?a ?b] => first [replace (Reqb a b) with true by (symmetry; apply Reqb_true; lra) | replace (Reqb a b) with false by (symmetry; apply Reqb_false; lra)]
  end.
Lemma threshold_val : threshold = 1 / 100000.
Proof. unfold threshold. simpl. lra. Qed.

(** Two surveys with the same filter name: the name is "in" the group, looking it up raises, and
    [fluxes_to_bandflux] silently uses the first survey's passband. *)
Theorem C32_ambiguous_refuted : exists g, built g /\ pg_contains g "r" = true /\ pg_getitem g "r" = Err KeyError /\
  exists p1 p2 m b1 b2, members g = [p1; p2] /\ pb_filter p1 = "r"%string /\ pb_filter p2 = "r"%string /\
    pb_full p1 = "LSST_r"%string /\ pb_full p2 = "ZTF_r"%string /\
    pg_bandflux g m "r" = Ok b1 /\ pg_bandflux g m "LSST_r" = Ok b1 /\ pg_bandflux g m "ZTF_r" = Ok b2 /\ b1 <> b2.
Proof.
  destruct (two_rows_ok "LSST" "r" 100 200) as (p1 & E1 & S1 & F1 & W1); [lra|].
  destruct (two_rows_ok "ZTF" "r" 300 400) as (p2 & E2 & S2 & F2 & W2); [lra|].
  assert (N1 : pb_full p1 = "LSST_r"%string) by (unfold pb_full; rewrite S1, F1; reflexivity).
  assert (N2 : pb_full p2 = "ZTF_r"%string) by (unfold pb_full; rewrite S2, F2; reflexivity).
  destruct (pair_group p1 p2) as (g & B & EB & EM); try (eapply two_rows_built; eauto); [congruence|].
  assert (I1 : In p1 (members g)) by (rewrite EM; left; auto). assert (I2 : In p2 (members g)) by (rewrite EM; right; left; auto).
  exists g. split; auto. split; [|split].
  - apply (C32_contains g _ B). exists p1. auto.
  - apply (C32_getitem g _ B). intros p [HP [H|(_ & H & U)]]; rewrite EM in HP; destruct HP as [<-|[<-|[]]]; try congruence.
    + specialize (U p2 I2 F2). congruence.
    + specialize (U p1 I1 F1). congruence.
  - assert (SEP : separated (all_waves g)).
    { unfold all_waves. rewrite EM. simpl. rewrite W1, W2. simpl. intros a b Ha Hb HL. rewrite threshold_val.
      repeat (destruct Ha as [<-|Ha]); repeat (destruct Hb as [<-|Hb]); try tauto; lra. }
    set (f := fun x => if Rltb x 250 then 1 else 2).
    exists p1, p2, (map (fun f => map f (pg_waves g)) [f]), [1], [2].
    assert (Q1 : pg_bandflux g (map (fun f => map f (pg_waves g)) [f]) "LSST_r" = Ok [1]).
    { rewrite <- N1. rewrite C33_bandflux by auto. rewrite W1. unfold f. cbn [map]. rdec. eapply flat_pair; eauto. }
    assert (Q2 : pg_bandflux g (map (fun f => map f (pg_waves g)) [f]) "ZTF_r" = Ok [2]).
    { rewrite <- N2. rewrite C33_bandflux by auto. rewrite W2. unfold f. cbn [map]. rdec. eapply flat_pair; eauto. }
    do 5 (split; [assumption|]). split; [|split; [auto|split; auto]].
    + destruct (built_inv g B) as (_ & _ & HU). destruct (update_inv _ _ HU) as (_ & _ & EN).
      unfold pg_bandflux. replace (pg_resolve g "r") with (@Ok string "LSST_r"); [unfold pg_bandflux, pg_resolve in Q1|].
      * rewrite EB, N1, N2 in Q1. cbn [dmem dget String.eqb bind] in Q1. rewrite EB, N1, N2. exact Q1.
      * unfold pg_resolve. rewrite EN, EB, N1, N2. cbn. unfold filter_names. cbn. rewrite F1. cbn. rewrite F2. reflexivity.
    + intros H. inversion H. lra.
Qed.
(** Asking for a band by both its full and its filter name is refused as "not found". *)
Theorem C32_filters_both_names_refuted : exists p, built_band p /\ pb_full p = "LSST_u"%string /\ pb_filter p = "u"%string /\
  pg_make [p] (Some ["LSST_u"; "u"]%string) = Err ValueError.
Proof.
  destruct (two_rows_ok "LSST" "u" 100 200) as (p1 & E1 & S1 & F1 & W1); [lra|].
  assert (N1 : pb_full p1 = "LSST_u"%string) by (unfold pb_full; rewrite S1, F1; reflexivity).
  exists p1. split; [eapply two_rows_built; eauto|]. split; auto. split; auto.
  unfold pg_make, prune, collect. cbn [fold_left dset]. rewrite N1. reflexivity.
Qed.
(** Near-duplicate wavelengths of two bands: the recorded positions of the second band read other
    wavelengths, or lie outside the grid. *)
Theorem C33_near_duplicate_refuted : exists g p ix, built g /\ In p (members g) /\ pb_waves p = [100 + 1 / 1000000; 200] /\
  dget (pb_full p) (pg_index g) = Some ix /\ take_cols (pg_waves g) ix = Ok [200; 200].
Proof.
  destruct (two_rows_ok "LSST" "r" 100 200) as (p1 & E1 & S1 & F1 & W1); [lra|].
  destruct (two_rows_ok "ZTF" "r" (100 + 1 / 1000000) 200) as (p2 & E2 & S2 & F2 & W2); [lra|].
  assert (N1 : pb_full p1 = "LSST_r"%string) by (unfold pb_full; rewrite S1, F1; reflexivity).
  assert (N2 : pb_full p2 = "ZTF_r"%string) by (unfold pb_full; rewrite S2, F2; reflexivity).
  destruct (pair_group p1 p2) as (g & B & EB & EM); try (eapply two_rows_built; eauto); [congruence|].
  destruct (built_inv g B) as (K & _ & HU). destruct (update_inv _ _ HU) as (_ & EW & _).
  assert (GR : pg_waves g = [100; 200]).
  { rewrite EW, EB. unfold merge_waves. cbn [flat_map snd app]. rewrite W1, W2. cbn [app sortR]. do 6 (cbn [insertR keep_gaps]; rewrite ?threshold_val; rdec). reflexivity. }
  assert (I2 : In p2 (members g)) by (rewrite EM; right; left; auto).
  destruct (update_index _ _ HU (proj1 K) (pb_full p2) p2 (keyed_get _ _ K I2)) as (ix & G1 & G2).
  rewrite <- EW, GR, W2 in G2. unfold band_indices in G2. cbv zeta in G2. cbn [last] in G2.
  assert (L0 : ss_left [100; 200] (100 + 1 / 1000000) = 1%nat) by (unfold ss_left; cbn [filter]; rdec; reflexivity).
  assert (L1 : ss_left [100; 200] 200 = 1%nat) by (unfold ss_left; cbn [filter]; rdec; reflexivity).
  rewrite L0, L1 in G2. cbn [Nat.add Nat.sub skipn firstn list_eqb] in G2. rewrite andb_false_r in G2. cbn [map] in G2. rewrite L0, L1 in G2.
  injection G2 as <-. exists g, p2, [1%nat; 1%nat]. rewrite GR. repeat split; auto.
Qed.
Theorem C33_near_duplicate_crash_refuted : exists g p c, built g /\ In p (members g) /\
  pg_bandflux g [repeat c (length (pg_waves g))] (pb_full p) = Err IndexError.
Proof.
  destruct (two_rows_ok "LSST" "r" 100 200) as (p1 & E1 & S1 & F1 & W1); [lra|].
  destruct (two_rows_ok "ZTF" "r" 150 (200 + 1 / 1000000)) as (p2 & E2 & S2 & F2 & W2); [lra|].
  assert (N1 : pb_full p1 = "LSST_r"%string) by (unfold pb_full; rewrite S1, F1; reflexivity).
  assert (N2 : pb_full p2 = "ZTF_r"%string) by (unfold pb_full; rewrite S2, F2; reflexivity).
  destruct (pair_group p1 p2) as (g & B & EB & EM); try (eapply two_rows_built; eauto); [congruence|].
  destruct (built_inv g B) as (K & _ & HU). destruct (update_inv _ _ HU) as (_ & EW & _).
  assert (GR : pg_waves g = [100; 150; 200]).
  { rewrite EW, EB. unfold merge_waves. cbn [flat_map snd app]. rewrite W1, W2. cbn [app sortR]. do 6 (cbn [insertR keep_gaps]; rewrite ?threshold_val; rdec). reflexivity. }
  assert (I2 : In p2 (members g)) by (rewrite EM; right; left; auto).
  destruct (update_index _ _ HU (proj1 K) (pb_full p2) p2 (keyed_get _ _ K I2)) as (ix & G1 & G2).
  rewrite <- EW, GR, W2 in G2. unfold band_indices in G2. cbv zeta in G2. cbn [last] in G2.
  assert (L0 : ss_left [100; 150; 200] 150 = 1%nat) by (unfold ss_left; cbn [filter]; rdec; reflexivity).
  assert (L1 : ss_left [100; 150; 200] (200 + 1 / 1000000) = 3%nat) by (unfold ss_left; cbn [filter]; rdec; reflexivity).
  rewrite L0, L1 in G2. cbn [Nat.add Nat.sub skipn firstn list_eqb] in G2.
  replace (Reqb 200 (200 + 1 / 1000000)) with false in G2 by (symmetry; apply Reqb_false; lra).
  rewrite andb_false_r in G2. cbn [map] in G2. rewrite L0, L1 in G2.
  injection G2 as <-. exists g, p2, 1. split; auto. split; auto. rewrite GR. unfold pg_bandflux, pg_resolve.
  pose proof (keyed_get _ _ K I2) as G. unfold dmem. rewrite G. cbn [bind]. rewrite G, G1. reflexivity.
Qed.
(** A group meeting the hypothesis of C33 that is not trivial: overlapping grids. *)
Example C33_applies : exists g p, built g /\ separated (all_waves g) /\ In p (members g) /\ pb_waves p = [100; 300] /\
  In 200 (pg_waves g).
Proof.
  destruct (two_rows_ok "LSST" "r" 100 300) as (p1 & E1 & S1 & F1 & W1); [lra|].
  destruct (two_rows_ok "ZTF" "r" 200 400) as (p2 & E2 & S2 & F2 & W2); [lra|].
  assert (N : pb_full p1 <> pb_full p2) by (unfold pb_full; rewrite S1, F1, S2, F2; discriminate).
  destruct (pair_group p1 p2) as (g & B & EB & EM); try (eapply two_rows_built; eauto); auto.
  assert (SEP : separated (all_waves g)).
  { unfold all_waves. rewrite EM. simpl. rewrite W1, W2. simpl. intros a b Ha Hb HL. rewrite threshold_val.
    repeat (destruct Ha as [<-|Ha]); repeat (destruct Hb as [<-|Hb]); try tauto; lra. }
  exists g, p1. split; auto. split; auto. split; [rewrite EM; left; auto|]. split; auto.
  apply (C33_grid g B SEP). exists p2. rewrite EM, W2. simpl. auto.
Qed.
