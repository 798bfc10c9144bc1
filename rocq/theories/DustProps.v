(** Properties C96 (E(B-V) from dust maps) and C97 (extinction effects by name). *)
From Coq Require Import Reals String List Bool Arith ZArith Lia Lra.
From Verif Require Import Base BaseFacts RealBase GraphStateModel GraphStateProofs GraphStateProofs2 GraphStateProofs3 GraphStateProofs4 GraphStateProps NodeGraphModel NodeGraphProps ExternalModel ExternalProps DustModel.
Import ListNotations.
Open Scope string_scope.
Open Scope list_scope.
Open Scope nat_scope.

(** ** Vocabulary *)
(** In the state, parameter [k] of the node has the values [xs], one per sample. *)
Definition has_values {A} (st : gs A) (node k : string) (xs : list A) : Prop := length xs = gs_n st /\ exists v, stored_as (gs_n st) xs v /\ reads st node k v.
(** A dust map that gives each position its own value. *)
Definition pointwise_map (dm : dustmap) (q : num -> num -> num) : Prop :=
  (forall a d, dm (COne a d) = Ok (Atom (q a d))) /\ forall l, dm (CMany l) = Ok (Arr (map (fun p => Atom (q (fst p) (snd p))) l)).
(** A translation to E(B-V) that acts on each value; none is the identity. *)
Definition pointwise_func (ef : option (value num -> result (value num))) (g : num -> num) : Prop :=
  match ef with
  | None => forall x, g x = x
  | Some h => (forall x, h (Atom x) = Ok (Atom (g x))) /\ forall l, h (Arr (map Atom l)) = Ok (Arr (map (fun x => Atom (g x)) l))
  end.
(** A declination a position on the sky can have (NaN is let through). *)
Definition on_sky (d : num) : Prop := match d with Some x => (-90 <= x <= 90)%R | None => True end.

Lemma lat_ok_iff : forall d, lat_ok d = true <-> on_sky d.
Proof.
  intros [x|]; cbn [lat_ok on_sky]; [|tauto]. rewrite andb_true_iff, !Rleb_true. tauto.
Qed.
Lemma flat_map_atom : forall xs, flat (map Atom xs) = Some xs.
Proof. induction xs as [|x xs IH]; auto. cbn [map flat]. now rewrite IH. Qed.
Lemma stored_storable : forall A n (xs : list A) v, 1 <= n -> length xs = n -> stored_as n xs v -> store_value n v = Ok v.
Proof.
  intros A n xs v Hn L [(-> & x & -> & ->)|(N & ->)]; auto. unfold store_value. apply Nat.eqb_neq in N. rewrite N, map_length, L, Nat.eqb_refl. reflexivity.
Qed.
Lemma stored_fun : forall A n (xs : list A) v w, stored_as n xs v -> stored_as n xs w -> v = w.
Proof. intros A n xs v w [(-> & x & -> & ->)|(N & ->)] [(E & y & E1 & ->)|(M & ->)]; congruence. Qed.

(** ** The node *)
Lemma dust_store : forall q node st ra dec v xs, reachable st -> reads st node "ra" ra -> reads st node "dec" dec -> q ra dec = Ok v -> length xs = gs_n st -> stored_as (gs_n st) xs v ->
  exists st', dust_compute q node st = (st', Ok v) /\ gs_n st' = gs_n st /\ (~ fixed_in st node "ebv" -> has_values st' node "ebv" xs) /\
    forall nd k w, (nd, k) <> (node, "ebv") \/ fixed_in st nd k -> (reads st' nd k w <-> reads st nd k w).
Proof.
  intros q node st ra dec v xs R HR HD HQ L HS. assert (W := reachable_wf _ R). pose proof (wf_n _ W) as Wn. assert (WK := wf_wk _ W).
  assert (IT : forall k u, reads st node k u -> gs_item st node k = Ok u).
  { intros k u H. unfold reads in H. rewrite reads_look in H by auto. unfold look in H. unfold gs_item, gs_getitem. destruct (dget node (gs_states st)); [|discriminate]. now rewrite H. }
  assert (ND : has_dot node = false).
  { unfold reads in HR. rewrite reads_look in HR by auto. now apply look_nodot in HR. }
  unfold dust_compute. cbn [build_inputs dget]. rewrite (IT _ _ HR), (IT _ _ HD). cbn. rewrite HQ.
  destruct (gs_set st node "ebv" v false) as [st' r] eqn:ES. destruct (set_spec _ _ _ _ _ _ _ W ES) as (W' & N' & RR & _ & HL & _ & HV & _).
  pose proof (stored_storable _ _ _ _ Wn L HS) as SV.
  assert (r = None). { destruct RR as [->| ->]; auto. destruct (HV eq_refl) as [H|[H|H]]; [congruence|discriminate|congruence]. } subst r.
  exists st'. split; auto. split; auto. split.
  - intros NF. apply fixed_false in NF. split; [now rewrite N'|]. exists v. rewrite N'. split; auto. unfold reads. apply reads_look; [now apply wf_wk|]. rewrite HL, NF, !String.eqb_refl. cbn [andb negb]. now rewrite SV.
  - intros nd k w H. unfold reads. rewrite !reads_look by (auto using wf_wk). rewrite HL. destruct (String.eqb nd node && String.eqb k "ebv" && negb (is_fixed st node "ebv"))%bool eqn:E; [|tauto].
    apply andb_prop in E. destruct E as [E E3]. apply andb_prop in E. destruct E as [E1 E2]. apply String.eqb_eq in E1, E2. subst. apply negb_true_iff in E3. apply fixed_false in E3. destruct H as [H|H]; [congruence|tauto].
Qed.
Lemma combine_nth_pair : forall A B (l1 : list A) (l2 : list B), length l1 = length l2 -> length (combine l1 l2) = length l1.
Proof. intros. rewrite combine_length. lia. Qed.
Lemma snd_combine : forall A B (l1 : list A) (l2 : list B), length l1 = length l2 -> map snd (combine l1 l2) = l2.
Proof. induction l1 as [|a l1 IH]; intros [|b l2] L; try discriminate; auto. cbn [combine map snd]. f_equal. apply IH. cbn in L. lia. Qed.

(** ** C96 *)
(** Both coordinates are required to make a node. *)
Theorem C96_needs_position : forall S (ra dec : option S), dust_init ra dec = Err ValueError <-> ra = None \/ dec = None.
Proof. intros S [a|] [d|]; cbn [dust_init]; split; intros H; auto; try discriminate. destruct H; discriminate. Qed.
(** Sampling a wrapped dust map: E(B-V) of sample [i] is the map's value at the position of sample [i] (right ascension wrapped into [0, 360)), translated by [ebv_func] if there is
    one; values given in advance and all other parameters stay. *)
Theorem C96_wrapper : forall dm q ef g node st ras decs, reachable st -> pointwise_map dm q -> pointwise_func ef g ->
  has_values st node "ra" ras -> has_values st node "dec" decs -> Forall on_sky decs ->
  exists st' v, dust_compute (wrapper_ebv (Some dm) ef) node st = (st', Ok v) /\ gs_n st' = gs_n st /\
    (~ fixed_in st node "ebv" -> exists es, has_values st' node "ebv" es /\
       forall i a d, nth_error ras i = Some a -> nth_error decs i = Some d -> nth_error es i = Some (g (q (lon a) d))) /\
    forall nd k w, (nd, k) <> (node, "ebv") \/ fixed_in st nd k -> (reads st' nd k w <-> reads st nd k w).
Proof.
  intros dm q ef g node st ras decs R HM HF (L1 & v1 & S1 & R1) (L2 & v2 & S2 & R2) HD.
  set (es := map (fun p => g (q (lon (fst p)) (snd p))) (combine ras decs)).
  assert (LE : length es = gs_n st) by (unfold es; rewrite map_length, combine_nth_pair; congruence).
  assert (X : exists v, wrapper_ebv (Some dm) ef v1 v2 = Ok v /\ stored_as (gs_n st) es v).
  { destruct S1 as [(N1 & a & E1 & ->)|(N1 & ->)], S2 as [(N2 & d & E2 & ->)|(N2 & ->)]; try congruence.
    - subst. inversion HD; subst. exists (Atom (g (q (lon a) d))). split; [|left; split; auto; exists (g (q (lon a) d)); auto].
      unfold wrapper_ebv, sky_coord. replace (lat_ok d) with true by (symmetry; now apply lat_ok_iff). cbn [bind]. rewrite (proj1 HM). cbn [bind]. destruct ef as [h|]; cbn [pointwise_func] in HF; [apply HF|now rewrite HF].
    - exists (Arr (map Atom es)). split; [|right; auto]. unfold wrapper_ebv, sky_coord. rewrite !flat_map_atom. replace (length ras =? length decs) with true by (symmetry; apply Nat.eqb_eq; congruence). cbn [negb].
      replace (forallb lat_ok decs) with true by (symmetry; apply forallb_forall; intros d Hd; apply lat_ok_iff; rewrite Forall_forall in HD; auto). cbn [bind]. rewrite (proj2 HM). cbn [bind].
      assert (E : map (fun p : num * num => Atom (q (fst p) (snd p))) (combine (map lon ras) decs) = map Atom (map (fun p => q (lon (fst p)) (snd p)) (combine ras decs))).
      { clear. revert decs. induction ras as [|a ras IH]; intros [|d decs]; auto. cbn [map combine fst snd]. now rewrite IH. }
      rewrite E. destruct ef as [h|]; cbn [pointwise_func] in HF; [rewrite (proj2 HF)|]; f_equal; f_equal; unfold es; rewrite !map_map; auto. apply map_ext. intros p. now rewrite HF. }
  destruct X as (v & E & SV). destruct (dust_store _ node st v1 v2 v es R R1 R2 E LE SV) as (st' & C & N' & HV & HO). exists st', v. split; auto. split; auto. split; auto.
  intros NF. exists es. split; auto. intros i a d HA HB. unfold es.
  assert (HC : nth_error (combine ras decs) i = Some (a, d)).
  { clear -HA HB. revert decs i HA HB. induction ras as [|x ras IH]; intros [|y decs] [|i] HA HB; try discriminate; cbn [nth_error combine] in *; [congruence|auto]. }
  rewrite (map_nth_error _ _ _ HC). reflexivity.
Qed.
(** [lon]: the same direction, between 0 and 360 degrees. *)
Theorem C96_wrapped : forall x, (0 <= wrap360 x < 360)%R /\ exists k : Z, wrap360 x = (x - 360 * IZR k)%R.
Proof.
  intros x. split; [|unfold wrap360; eauto]. unfold wrap360. destruct (base_Int_part (x / 360)) as [H1 H2]. assert (E : (x = 360 * (x / 360))%R) by field. lra.
Qed.
(** A declination outside [-90, 90] is refused and so is a missing map; the state is left as it was. *)
Theorem C96_refused : forall dm ef node st ras decs, reachable st -> has_values st node "ra" ras -> has_values st node "dec" decs ->
  dm = None \/ (exists d, In d decs /\ ~ on_sky d) -> dust_compute (wrapper_ebv dm ef) node st = (st, Err ValueError).
Proof.
  intros dm ef node st ras decs R (L1 & v1 & S1 & R1) (L2 & v2 & S2 & R2) H. assert (W := reachable_wf _ R). assert (WK := wf_wk _ W).
  assert (IT : forall k u, reads st node k u -> gs_item st node k = Ok u).
  { intros k u Hu. unfold reads in Hu. rewrite reads_look in Hu by auto. unfold look in Hu. unfold gs_item, gs_getitem. destruct (dget node (gs_states st)); [|discriminate]. now rewrite Hu. }
  unfold dust_compute. cbn [build_inputs dget]. rewrite (IT _ _ R1), (IT _ _ R2). cbn.
  assert (E : wrapper_ebv dm ef v1 v2 = Err ValueError); [|now rewrite E]. destruct dm as [dm|]; [|reflexivity]. destruct H as [H|(d & HI & HN)]; [discriminate|]. unfold wrapper_ebv, sky_coord.
  destruct S1 as [(N1 & a & E1 & ->)|(N1 & ->)], S2 as [(N2 & d' & E2 & ->)|(N2 & ->)]; try congruence.
  - subst decs. destruct HI as [->|[]]. destruct (lat_ok d) eqn:E; [|reflexivity]. apply lat_ok_iff in E. tauto.
  - rewrite !flat_map_atom. destruct (negb _); [reflexivity|]. destruct (forallb lat_ok decs) eqn:E; [|reflexivity]. rewrite forallb_forall in E. apply E, lat_ok_iff in HI. tauto.
Qed.
(** The constant map is pointwise for numbers: its northern value at declination 0 and above, its southern value below. *)
Theorem C96_hemisphere : forall north south node st ras decs, reachable st -> has_values st node "ra" ras -> has_values st node "dec" (map Some decs) ->
  Forall (fun d => (-90 <= d <= 90)%R) decs -> ~ fixed_in st node "ebv" ->
  exists st' v es, dust_compute (wrapper_ebv (Some (hemi_query north south)) None) node st = (st', Ok v) /\ has_values st' node "ebv" es /\
    forall i d, nth_error decs i = Some d -> ((0 <= d)%R -> nth_error es i = Some north) /\ ((d < 0)%R -> nth_error es i = Some south).
Proof.
  intros north south node st ras decs R (L1 & v1 & S1 & R1) (L2 & v2 & S2 & R2) HD NF.
  set (es := map (fun d => if Rltb d 0 then south else north) decs).
  assert (LE : length es = gs_n st) by (unfold es; rewrite map_length; rewrite map_length in L2; congruence).
  assert (X : exists v, wrapper_ebv (Some (hemi_query north south)) None v1 v2 = Ok v /\ stored_as (gs_n st) es v).
  { destruct S1 as [(N1 & a & E1 & ->)|(N1 & ->)], S2 as [(N2 & d & E2 & ->)|(N2 & ->)]; try congruence.
    - destruct decs as [|x [|y l]]; try discriminate. injection E2 as <-. inversion HD as [|? ? H1 H2]; subst. exists (Atom (if Rltb x 0 then south else north)). split; [|left; split; auto; eexists; split; reflexivity].
      unfold wrapper_ebv, sky_coord. replace (lat_ok (Some x)) with true by (symmetry; now apply lat_ok_iff). cbn. destruct (Rltb x 0) eqn:E.
      + apply Rltb_true in E. replace (Rleb 0 x) with false; auto. symmetry. apply Rleb_false. lra.
      + apply Rltb_false in E. replace (Rleb 0 x) with true; auto. symmetry. apply Rleb_true. lra.
    - exists (Arr (map Atom es)). split; [|right; auto]. unfold wrapper_ebv, sky_coord. rewrite !flat_map_atom. match goal with |- context [negb (?a =? ?b)] => replace (a =? b) with true by (symmetry; apply Nat.eqb_eq; exact (eq_trans L1 (eq_sym L2))) end. cbn [negb].
      replace (forallb lat_ok (map Some decs)) with true.
      2:{ symmetry. apply forallb_forall. intros d Hd. apply lat_ok_iff. apply in_map_iff in Hd. destruct Hd as (x & <- & Hx). rewrite Forall_forall in HD. exact (HD x Hx). }
      cbn [bind]. unfold hemi_query, hemi_ebv. rewrite <- (map_map (A := num * num) (B := num) snd Atom), flat_map_atom. cbn [bind]. f_equal. f_equal.
      etransitivity; [apply (f_equal (map (fun d : num => Atom (if negative d then south else north)))); apply (snd_combine num num); rewrite map_length; exact (eq_trans L1 (eq_sym L2))|].
      unfold es. rewrite !map_map. reflexivity. }
  destruct X as (v & E & SV). destruct (dust_store _ node st v1 v2 v es R R1 R2 E LE SV) as (st' & C & N' & HV & HO). exists st', v, es. split; auto. split; auto.
  intros i d Hi. unfold es. rewrite (map_nth_error _ _ _ Hi). split; intros H.
  - replace (Rltb d 0) with false; auto. symmetry. apply Rltb_false. lra.
  - replace (Rltb d 0) with true; auto. symmetry. now apply Rltb_true.
Qed.
(** Concrete: three samples, one of them on the equator. *)
Definition ex_dust (n : nat) (ra dec : value num) : gs num := run (gs_fresh n) [OSet "d" "ra" ra false; OSet "d" "dec" dec false].
Definition nums (l : list R) : value num := Arr (map (fun x => Atom (Some x)) l).
Lemma ex_dust_reachable : forall n ra dec, 1 <= n -> reachable (ex_dust n ra dec).
Proof. intros. exists n, [OSet "d" "ra" ra false; OSet "d" "dec" dec false]. split; [lia|reflexivity]. Qed.
Example C96_hemisphere_case : let st := ex_dust 3 (nums [10; 370; -5]%R) (nums [45; 0; -30]%R) in
  reachable st /\ has_values st "d" "ra" (map Some [10; 370; -5]%R) /\ has_values st "d" "dec" (map Some [45; 0; -30]%R) /\ ~ fixed_in st "d" "ebv".
Proof.
  cbv zeta. split; [apply ex_dust_reachable; lia|]. split; [|split].
  - split; [reflexivity|]. eexists. split; [right; split; [discriminate|reflexivity]|reflexivity].
  - split; [reflexivity|]. eexists. split; [right; split; [discriminate|reflexivity]|reflexivity].
  - intros (l & H & HI). cbv in H. injection H as <-. destruct HI.
Qed.
(** NaN declinations: the same position gets the southern value when it is the only sample and the northern value otherwise. *)
Theorem C96_nan_refuted : exists v1 v2 st1 st2, let q := wrapper_ebv (Some (hemi_query (Some 1%R) (Some 2%R))) None in
  dust_compute q "d" (ex_dust 1 (Atom (Some 10%R)) (Atom None)) = (st1, Ok v1) /\ dust_compute q "d" (ex_dust 2 (nums [10; 20]%R) (Arr [Atom None; Atom (Some 5%R)])) = (st2, Ok v2) /\
  v1 = Atom (Some 2%R) /\ v2 = Arr [Atom (Some 1%R); Atom (Some 1%R)].
Proof.
  assert (E1 : forall (st : gs num) ra dec, gs_item st "d" "ra" = Ok ra -> gs_item st "d" "dec" = Ok dec -> forall q v st', q ra dec = Ok v -> save_results_gs st "d" ["ebv"] v = (st', None) -> dust_compute q "d" st = (st', Ok v)).
  { intros st ra dec H1 H2 q v st' H3 H4. unfold dust_compute. cbn [build_inputs dget]. rewrite H1, H2. cbn [dget String.eqb Ascii.eqb Bool.eqb]. rewrite H3, H4. reflexivity. }
  exists (Atom (Some 2%R)), (Arr [Atom (Some 1%R); Atom (Some 1%R)]). do 2 eexists. cbv zeta. split; [|split; [|split]].
  - eapply E1; [reflexivity|reflexivity|reflexivity|reflexivity].
  - eapply E1; [reflexivity|reflexivity| |reflexivity]. unfold wrapper_ebv, sky_coord, nums. cbn [map flat length Nat.eqb negb forallb lat_ok].
    replace (Rleb (-90) 5) with true by (symmetry; apply Rleb_true; lra). replace (Rleb 5 90) with true by (symmetry; apply Rleb_true; lra).
    cbn [andb bind combine map hemi_query hemi_ebv fst snd flat negative]. replace (Rltb 5 0) with false by (symmetry; apply Rltb_false; lra). reflexivity.
  - reflexivity.
  - reflexivity.
Qed.

(** ** C97 *)
Section Ext.
Context {K L : Type}.
Implicit Types (lib : library K L).
(** A model is loaded from the first module that has an entry of that name; KeyError exactly if none has. *)
Theorem C97_first_module : forall lib1 m lib2 name (kwargs : dict K) e, (forall m', In m' lib1 -> ~ In name (dkeys m')) -> dget name m = Some e ->
  load_model (lib1 ++ m :: lib2) name kwargs = call_entry e kwargs.
Proof.
  induction lib1 as [|m1 lib1 IH]; intros m lib2 name kwargs e H HE; cbn [app load_model]; [now rewrite HE|].
  assert (N : dget name m1 = None) by (apply dget_None; apply H; now left). rewrite N. apply IH; auto. intros; apply H; now right.
Qed.
Theorem C97_unknown_name : forall lib name (kwargs : dict K), (forall m, In m lib -> ~ In name (dkeys m)) -> load_model lib name kwargs = Err KeyError.
Proof.
  induction lib as [|m lib IH]; intros name kwargs H; auto. cbn [load_model]. assert (N : dget name m = None) by (apply dget_None; apply H; now left). rewrite N. apply IH. intros; apply H; now right.
Qed.
Lemma found : forall lib name, (exists m, In m lib /\ In name (dkeys m)) -> exists m e, In m lib /\ dget name m = Some e /\ forall (kw : dict K), load_model lib name kw = call_entry e kw.
Proof.
  induction lib as [|m lib IH]; intros name (m' & HI & HK); [destruct HI|]. cbn [load_model]. destruct (dget name m) as [e|] eqn:E; [exists m, e; split; [now left|auto]|].
  destruct (IH name) as (m2 & e2 & H1 & H2 & H3).
  - exists m'. destruct HI as [->|HI]; auto. apply dget_keys in HK. congruence.
  - exists m2, e2. split; [now right|auto].
Qed.
(** Every listed name is found (no name of the list is unknown). *)
Theorem C97_listed_found : forall lib name, In name (list_models lib) -> exists m e, In m lib /\ dget name m = Some e /\ forall (kw : dict K), load_model lib name kw = call_entry e kw.
Proof.
  intros lib name H. apply found. unfold list_models in H. apply in_flat_map in H. destruct H as (m & HM & HI). exists m. split; auto. apply in_map_iff in HI. destruct HI as ([n e] & <- & HF).
  apply filter_In in HF. destruct HF as [HF _]. unfold dkeys. now apply in_map.
Qed.
(** The frame: exactly "observer" and "rest" are accepted, and decide where the effect acts; the effect's parameters are "ebv" and all further keyword arguments; a law that is
    given is used as it is. *)
Theorem C97_frame : forall lib as_kw (model : marg L) (ebv : K) frame label kwargs, frame <> Some "observer" -> frame <> Some "rest" ->
  ext_init lib as_kw model ebv frame label kwargs = Err ValueError.
Proof.
  intros lib as_kw model ebv [s|] label kwargs H1 H2; [|reflexivity]. unfold ext_init. destruct (String.eqb_spec s "observer") as [->|]; [congruence|]. destruct (String.eqb_spec s "rest") as [->|]; [congruence|]. reflexivity.
Qed.
Lemma params_get : forall (kwargs d : dict K) k, NoDup (dkeys kwargs) -> dget k (fold_left (fun d kv => dset (fst kv) (snd kv) d) kwargs d) = match dget k kwargs with Some v => Some v | None => dget k d end.
Proof.
  induction kwargs as [|[n v] kw IH]; intros d k ND; auto. unfold dkeys in ND. cbn [map fst] in ND. inversion ND as [|? ? N1 N2]; subst. cbn [fold_left fst snd dget]. rewrite IH by auto.
  destruct (String.eqb_spec k n) as [->|N].
  - assert (X : dget n kw = None) by now apply dget_None. now rewrite X, dget_dset_same.
  - destruct (dget k kw); auto. now rewrite dget_dset_other by auto.
Qed.
Theorem C97_made : forall lib as_kw model (ebv : K) frame label kwargs (x : exteff K L), NoDup (dkeys kwargs) -> ~ In "ebv" (dkeys kwargs) -> ext_init lib as_kw model ebv frame label kwargs = Ok x ->
  (frame = Some "rest" /\ x_rest x = true \/ frame = Some "observer" /\ x_rest x = false) /\
  x_name x = match label with Some n => n | None => "ExtinctionEffect" end /\
  (forall k, dget k (x_params x) = if String.eqb k "ebv" then Some ebv else dget k kwargs) /\
  (forall l, model = ByLaw l -> x_law x = l) /\
  (forall name, model = ByName name -> exists l, x_law x = Some l /\ load_model lib name (match label with Some s => kwargs ++ [("effect_name", as_kw s)] | None => kwargs end) = Ok l).
Proof.
  intros lib as_kw model ebv frame label kwargs x ND NE H. unfold ext_init in H.
  assert (PG : forall k, dget k (dset "ebv" ebv (fold_left (fun d kv => dset (fst kv) (snd kv) d) kwargs [])) = if String.eqb k "ebv" then Some ebv else dget k kwargs).
  { intros k. destruct (String.eqb_spec k "ebv") as [->|N]; [apply dget_dset_same|]. rewrite dget_dset_other by auto. rewrite params_get by auto. now destruct (dget k kwargs). }
  destruct frame as [s|]; [|discriminate]. destruct (String.eqb_spec s "observer") as [->|N1].
  - destruct model as [n|l]; [destruct (load_model lib n _) as [l|] eqn:EL; [|discriminate]|]; injection H as <-; cbn [x_rest x_name x_params x_law]; split; auto; split; auto; split; auto; split; try (intros; congruence).
    intros name E. injection E as ->. eauto.
  - destruct (String.eqb_spec s "rest") as [->|N2]; [|discriminate].
    destruct model as [n|l]; [destruct (load_model lib n _) as [l|] eqn:EL; [|discriminate]|]; injection H as <-; cbn [x_rest x_name x_params x_law]; split; auto; split; auto; split; auto; split; try (intros; congruence).
    intros name E. injection E as ->. eauto.
Qed.
(** An effect whose law is given by name cannot be given a name of its own: the label is handed to the law's class, which does not know it. *)
Theorem C97_label_refuted : forall lib as_kw name (ebv : K) frame label kwargs, (forall m known make b, In m lib -> dget name m = Some (EClass known make b) -> ~ In "effect_name" known) ->
  frame = Some "rest" \/ frame = Some "observer" -> (exists m, In m lib /\ In name (dkeys m)) ->
  ext_init lib as_kw (ByName name) ebv frame (Some label) kwargs = Err TypeError.
Proof.
  intros lib as_kw name ebv frame label kwargs HK HF HL. destruct (found lib name HL) as (m & e & HM & HE & HC).
  assert (X : load_model lib name (kwargs ++ [("effect_name", as_kw label)]) = Err TypeError).
  { rewrite HC. destruct e as [known make b|]; [|reflexivity]. unfold call_entry. destruct (forallb _ _) eqn:E; [|reflexivity]. rewrite forallb_forall in E. exfalso. apply (HK m known make b HM HE). apply smem_In.
    apply E. unfold dkeys. rewrite map_app. apply in_or_app. right. now left. }
  unfold ext_init. destruct HF as [->| ->]; cbn [String.eqb Ascii.eqb Bool.eqb]; rewrite X; reflexivity.
Qed.
(** A name that a module merely imports is found, but is no law: TypeError instead of KeyError. *)
Theorem C97_not_a_law_refuted : forall lib name (kw : dict K) m b, In m lib -> (forall m' e, In m' lib -> dget name m' = Some e -> e = EOther b) -> In name (dkeys m) -> load_model lib name kw = Err TypeError.
Proof. intros lib name kw m b HM HO HK. destruct (found lib name) as (m' & e & H1 & H2 & H3); [eauto|]. rewrite H3, (HO m' e H1 H2). reflexivity. Qed.
End Ext.
Definition ex_lib : library Z Z := [[("np", EOther false); ("BaseExtModel", EClass ["Rv"] (fun _ => Ok 0%Z) true)]; [("CCM89", EClass ["Rv"] (fun kw => match dget "Rv" kw with Some r => Ok r | None => Ok 31%Z end) true); ("BaseExtModel", EClass ["Rv"] (fun _ => Ok 0%Z) true); ("np", EOther false)]].
Example C97_case : list_models ex_lib = ["BaseExtModel"; "CCM89"; "BaseExtModel"] /\
  ext_init ex_lib (fun _ => 0%Z) (ByName "CCM89") 1%Z (Some "rest") None [("Rv", 40%Z)] = Ok (mkX true "ExtinctionEffect" [("Rv", 40%Z); ("ebv", 1%Z)] (Some 40%Z)) /\
  ext_init ex_lib (fun _ => 0%Z) (ByName "CCM89") 1%Z (Some "rest") (Some "mw") [("Rv", 40%Z)] = Err TypeError /\
  load_model ex_lib "np" [] = Err TypeError /\ load_model ex_lib "G99" [] = Err KeyError /\
  ext_init ex_lib (fun _ => 0%Z) (ByLaw (Some 7%Z)) 1%Z (Some "observer") (Some "mw") [] = Ok (mkX false "mw" [("ebv", 1%Z)] (Some 7%Z)).
Proof. repeat split. Qed.
Print Assumptions C96_wrapper.
Print Assumptions C97_made.
