(** Lemmas about [GraphStateModel]. *)
From Coq Require Import String Ascii List Bool Arith ZArith Lia Permutation.
From Verif Require Import Base BaseFacts GraphStateModel.
Import ListNotations.
Open Scope string_scope.
Open Scope list_scope.
Open Scope nat_scope.

Section P.
Context {A : Type}.
Notation gs := (gs A).
Notation value := (value A).
Notation op := (op A).

(** The value stored for a (node, variable) pair. *)
Definition look (s : gs) (node var : string) : option value :=
  match dget node (gs_states s) with Some d => dget var d | None => None end.

Definition is_fixed (s : gs) (node var : string) : bool :=
  match dget node (gs_fixed s) with Some l => smem var l | None => false end.

Definition shape (n : nat) (v : value) : Prop :=
  n = 1 \/ exists l, v = Arr l /\ length l = n.

Record wf (s : gs) : Prop := {
  wf_n : 1 <= gs_n s;
  wf_nodup : NoDup (dkeys (gs_states s));
  wf_keys : dkeys (gs_fixed s) = dkeys (gs_states s);
  wf_node : forall node d, dget node (gs_states s) = Some d ->
      has_dot node = false /\ NoDup (dkeys d);
  wf_var : forall node var v, look s node var = Some v ->
      has_dot var = false /\ shape (gs_n s) v;
  wf_fix : forall node var, is_fixed s node var = true -> look s node var <> None
}.

Lemma wf_fresh : forall n, 1 <= n -> wf (gs_fresh n).
Proof.
  intros; constructor; simpl; auto; try constructor; unfold look, is_fixed; simpl; discriminate.
Qed.

Lemma store_value_shape : forall n v w, store_value n v = Ok w -> shape n w.
Proof.
  unfold store_value, shape; intros n v w H. destruct (n =? 1) eqn:E.
  - apply Nat.eqb_eq in E. auto.
  - right. destruct v.
    + inversion H; subst. eexists; split; eauto. apply repeat_length.
    + destruct (length l =? n) eqn:E2; inversion H; subst. apply Nat.eqb_eq in E2. eauto.
Qed.

Lemma store_value_idem : forall n v, shape n v -> store_value n v = Ok v.
Proof.
  unfold store_value, shape; intros n v [->|[l [-> H]]]; auto.
  destruct (n =? 1); auto. apply Nat.eqb_eq in H. now rewrite H.
Qed.

Lemma eqb2 : forall (a b c d : string),
  String.eqb a b && String.eqb c d = true <-> a = b /\ c = d.
Proof. intros. now rewrite andb_true_iff, !String.eqb_eq. Qed.

Lemma dmem_keys_eq : forall V W (d : dict V) (e : dict W) k,
  dkeys d = dkeys e -> dmem k d = dmem k e.
Proof.
  intros. destruct (dmem k e) eqn:E.
  - apply dmem_true. rewrite H. now apply dmem_true in E.
  - apply dmem_false. rewrite H. now apply dmem_false in E.
Qed.

(** Complete description of one [set] call on a well-formed state. *)
Lemma set_spec : forall s node var v fx s' r,
  wf s -> gs_set s node var v fx = (s', r) ->
  wf s' /\ gs_n s' = gs_n s /\
  (r = None \/ r = Some ValueError) /\
  (r = None ->
     has_dot node = false /\ has_dot var = false /\
     (is_fixed s node var = true \/ exists w, store_value (gs_n s) v = Ok w)) /\
  (forall nd vr, look s' nd vr =
     match r with
     | Some _ => look s nd vr
     | None => if String.eqb nd node && String.eqb vr var && negb (is_fixed s node var)
               then match store_value (gs_n s) v with Ok w => Some w | Err _ => None end
               else look s nd vr
     end) /\
  (forall nd vr, is_fixed s' nd vr =
     match r with
     | Some _ => is_fixed s nd vr
     | None => is_fixed s nd vr || (fx && String.eqb nd node && String.eqb vr var)
     end) /\
  (r = Some ValueError ->
     has_dot node = true \/ has_dot var = true \/ store_value (gs_n s) v = Err ValueError) /\
  gs_np s' = (if has_dot node || has_dot var then gs_np s else
              match look s node var with Some _ => gs_np s | None => S (gs_np s) end).
Proof.
  intros s node var v fx s' r W H. unfold gs_set in H.
  destruct (has_dot node || has_dot var) eqn:ED.
  { inversion H; subst. split; [assumption|].
    apply orb_true_iff in ED. repeat split; auto; try discriminate. tauto. }
  apply orb_false_iff in ED. destruct ED as [ED1 ED2].
  destruct W as [Wn Wnd Wk Wno Wv Wf].
  set (st1 := if dmem node (gs_states s) then gs_states s else dset node [] (gs_states s)) in *.
  set (fx1 := if dmem node (gs_states s) then gs_fixed s else dset node [] (gs_fixed s)) in *.
  assert (K1 : dkeys fx1 = dkeys st1).
  { unfold fx1, st1. destruct (dmem node (gs_states s)) eqn:E; auto.
    rewrite !dkeys_dset. rewrite (dmem_keys_eq _ _ _ _ node Wk), Wk. reflexivity. }
  assert (ND1 : NoDup (dkeys st1)).
  { unfold st1. destruct (dmem node (gs_states s)); auto. now apply NoDup_dset. }
  assert (L1 : forall nd vr, match dget nd st1 with Some d => dget vr d | None => None end = look s nd vr).
  { intros. unfold st1, look. destruct (dmem node (gs_states s)) eqn:E; auto.
    rewrite dget_dset. destruct (String.eqb nd node) eqn:E2; auto.
    apply String.eqb_eq in E2; subst. apply dmem_false in E. apply dget_None in E. now rewrite E. }
  assert (F1 : forall nd vr, match dget nd fx1 with Some l => smem vr l | None => false end = is_fixed s nd vr).
  { intros. unfold fx1, is_fixed. destruct (dmem node (gs_states s)) eqn:E; auto.
    rewrite dget_dset. destruct (String.eqb nd node) eqn:E2; auto.
    apply String.eqb_eq in E2; subst. rewrite <- (dmem_keys_eq _ _ _ _ node Wk) in E.
    apply dmem_false in E. apply dget_None in E. now rewrite E. }
  assert (G1 : exists cur, dget node st1 = Some cur /\ NoDup (dkeys cur) /\ forall vr, dget vr cur = look s node vr).
  { assert (M : dmem node st1 = true).
    { unfold st1. destruct (dmem node (gs_states s)) eqn:E; auto.
      apply dmem_true. apply In_dkeys_dset. auto. }
    apply dmem_dget in M. destruct M as [cur M]. exists cur. split; auto.
    split; [|intros; rewrite <- L1, M; auto].
    unfold st1 in M. destruct (dmem node (gs_states s)) eqn:E.
    - now apply Wno in M.
    - rewrite dget_dset_same in M. inversion M. constructor. }
  destruct G1 as [cur [G1 [G2 G3]]].
  assert (N1 : forall nd d, dget nd st1 = Some d -> has_dot nd = false /\ NoDup (dkeys d)).
  { intros nd d. unfold st1. destruct (dmem node (gs_states s)); auto.
    rewrite dget_dset. destruct (String.eqb nd node) eqn:E2; auto.
    apply String.eqb_eq in E2; subst. intros E3; inversion E3; subst. split; auto. constructor. }
  assert (M2 : exists l, dget node fx1 = Some l).
  { apply dmem_dget. rewrite (dmem_keys_eq _ _ _ _ node K1). apply dmem_dget. eauto. }
  destruct M2 as [fl M2].
  rewrite G1 in H. rewrite M2 in H.
  assert (FL : smem var fl = is_fixed s node var) by (rewrite <- F1, M2; auto).
  assert (NP : (if dmem var cur then gs_np s else S (gs_np s)) =
               match look s node var with Some _ => gs_np s | None => S (gs_np s) end).
  { rewrite <- G3. unfold dmem. destruct (dget var cur); auto. }
  rewrite NP in H.
  set (np1 := match look s node var with Some _ => gs_np s | None => S (gs_np s) end) in *.
  rewrite FL in H.
  assert (W1 : wf (mkGS (gs_n s) np1 st1 fx1)).
  { constructor; simpl; auto.
    - intros nd vr w HL. unfold look in HL; simpl in HL. rewrite L1 in HL. eauto.
    - intros nd vr HF. unfold is_fixed in HF; simpl in HF. rewrite F1 in HF.
      unfold look; simpl. rewrite L1. auto. }
  destruct (is_fixed s node var) eqn:EF.
  { inversion H; subst s' r. simpl. split; [exact W1|].
    split; auto. split; auto. split; [auto|]. split.
    - intros. unfold look at 1; simpl. rewrite L1. rewrite andb_false_r. auto.
    - split; [|split; [discriminate|]].
      + intros. unfold is_fixed at 1; simpl. rewrite F1.
        destruct (String.eqb nd node) eqn:E1; destruct (String.eqb vr var) eqn:E2;
          rewrite ?andb_false_r, ?orb_false_r; auto.
        apply String.eqb_eq in E1, E2; subst. rewrite EF. now rewrite orb_true_l.
      + reflexivity. }
  destruct (store_value (gs_n s) v) as [w|e] eqn:ES.
  2:{ assert (e = ValueError).
      { unfold store_value in ES. destruct (gs_n s =? 1); [discriminate|].
        destruct v; [discriminate|]. destruct (length l =? gs_n s); congruence. }
      subst e. inversion H; subst s' r. simpl. split; [exact W1|].
      split; auto. split; auto. split; [discriminate|]. split; [|split; [|split]].
      - intros. unfold look at 1; simpl. now rewrite L1.
      - intros. unfold is_fixed at 1; simpl. now rewrite F1.
      - auto.
      - reflexivity. }
  inversion H; subst s' r. clear H. simpl.
  assert (LL : forall nd vr,
    match dget nd (dset node (dset var w cur) st1) with Some d => dget vr d | None => None end =
    (if String.eqb nd node && String.eqb vr var then Some w else look s nd vr)).
  { intros. rewrite dget_dset. destruct (String.eqb nd node) eqn:E1; simpl; auto.
    apply String.eqb_eq in E1; subst. rewrite dget_dset. destruct (String.eqb vr var); auto. }
  assert (FF : forall nd vr,
    match dget nd (if fx then dset node (sadd var fl) fx1 else fx1) with
    | Some l => smem vr l | None => false end =
    is_fixed s nd vr || (fx && String.eqb nd node && String.eqb vr var)).
  { intros. destruct fx; simpl.
    - rewrite dget_dset. destruct (String.eqb nd node) eqn:E1; simpl.
      + apply String.eqb_eq in E1; subst. rewrite <- F1, M2.
        apply eq_true_iff_eq. rewrite orb_true_iff, !smem_In, In_sadd, String.eqb_eq. tauto.
      + now rewrite F1, orb_false_r.
    - now rewrite F1, orb_false_r. }
  split.
  { constructor; simpl; auto.
    - now apply NoDup_dset.
    - rewrite dkeys_dset. assert (E : dmem node st1 = true) by (apply dmem_dget; eauto).
      rewrite E. destruct fx; auto. rewrite dkeys_dset.
      rewrite (dmem_keys_eq _ _ _ _ node K1), E. auto.
    - intros nd d. rewrite dget_dset. destruct (String.eqb nd node) eqn:E1; auto.
      apply String.eqb_eq in E1; subst. intros E; inversion E; subst. split; auto.
      now apply NoDup_dset.
    - intros nd vr u HL. unfold look in HL; simpl in HL. rewrite LL in HL.
      destruct (String.eqb nd node && String.eqb vr var) eqn:E.
      + apply eqb2 in E. destruct E; subst. inversion HL; subst. split; auto.
        eapply store_value_shape; eauto.
      + eauto.
    - intros nd vr HF. unfold is_fixed in HF; simpl in HF. rewrite FF in HF.
      unfold look; simpl. rewrite LL.
      destruct (String.eqb nd node && String.eqb vr var) eqn:E; [discriminate|].
      apply orb_true_iff in HF. destruct HF as [HF|HF]; auto.
      rewrite <- andb_assoc in HF. rewrite E in HF. rewrite andb_false_r in HF. discriminate. }
  split; auto. split; auto. split; [split; [|split]; eauto|]. split; [|split; [|split; [discriminate|]]].
  - intros. unfold look at 1; simpl. rewrite LL. now rewrite andb_true_r.
  - intros. unfold is_fixed at 1; simpl. apply FF.
  - reflexivity.
Qed.

Lemma set_all_inv : forall (P : gs -> Prop) fx,
  (forall s node var v s' r, P s -> gs_set s node var v fx = (s', r) -> P s') ->
  forall l s s' r, P s -> gs_set_all s l fx = (s', r) -> P s'.
Proof.
  intros P fx HP. induction l as [|[[node var] v] l IH]; simpl; intros s s' r H E.
  - inversion E; subst; auto.
  - destruct (gs_set s node var v fx) as [s1 [e|]] eqn:E1.
    + inversion E; subst. eauto.
    + eapply IH; [|eauto]. eauto.
Qed.

Lemma apply_op_inv : forall (P : gs -> Prop),
  (forall s node var v fx s' r, P s -> gs_set s node var v fx = (s', r) -> P s') ->
  forall s o, P s -> P (fst (apply_op s o)).
Proof.
  intros P HP s o H. destruct o; simpl.
  - destruct (gs_set s node var v fixed) eqn:E. simpl. eauto.
  - unfold gs_update_dict. destruct (gs_set_all s (entries inputs) all_fixed) eqn:E. simpl.
    eapply (set_all_inv P); eauto.
  - unfold gs_update. destruct (_ && _); auto.
    destruct (gs_set_all s (entries (gs_states inputs)) all_fixed) eqn:E. simpl.
    eapply (set_all_inv P); eauto.
Qed.

Lemma run_inv : forall (P : gs -> Prop),
  (forall s node var v fx s' r, P s -> gs_set s node var v fx = (s', r) -> P s') ->
  forall ops s, P s -> P (run s ops).
Proof.
  intros P HP. unfold run. induction ops; simpl; intros; auto.
  apply IHops. now apply apply_op_inv.
Qed.

Lemma wf_run : forall ops s, wf s -> wf (run s ops).
Proof.
  apply run_inv. intros. now apply (set_spec _ _ _ _ _ _ _ H H0).
Qed.

Lemma reachable_wf : forall s, reachable s -> wf s.
Proof. intros s [n [ops [H ->]]]. apply wf_run. now apply wf_fresh. Qed.

(** The part of well-formedness that single samples extracted from a state keep as well. *)
Record wk (s : gs) : Prop := {
  wk_nodup : NoDup (dkeys (gs_states s));
  wk_node : forall node d, dget node (gs_states s) = Some d ->
      has_dot node = false /\ NoDup (dkeys d);
  wk_var : forall node var v, look s node var = Some v -> has_dot var = false
}.

Lemma wf_wk : forall s, wf s -> wk s.
Proof.
  intros s W; constructor; try apply W. all: intros node var v H; now apply (wf_var _ W) in H.
Qed.
Hint Resolve wf_wk : core.

(** ** Lookup through [state["node.var"]]. *)
Lemma full_name_has_dot : forall a b, has_dot (full_name a b) = true.
Proof. intros. unfold full_name. rewrite has_dot_app. simpl. apply orb_true_r. Qed.

Lemma split_full_name : forall a b, has_dot a = false -> has_dot b = false ->
  split_dot (full_name a b) = [a; b].
Proof. intros. unfold full_name. rewrite split_dot_join by auto. now rewrite split_dot_nodot. Qed.

Lemma full_name_inj : forall a b c d,
  has_dot a = false -> has_dot b = false -> has_dot c = false -> has_dot d = false ->
  full_name a b = full_name c d -> a = c /\ b = d.
Proof. intros a b c d; unfold full_name; apply join_dot_inj. Qed.

Lemma wf_no_dot_key : forall s k, wk s -> has_dot k = true -> dget k (gs_states s) = None.
Proof.
  intros. destruct (dget k (gs_states s)) eqn:E; auto.
  apply (wk_node _ H) in E. destruct E; congruence.
Qed.

Lemma getitem_full : forall s node var, wk s -> has_dot node = false -> has_dot var = false ->
  gs_getitem s (full_name node var) =
  match look s node var with Some v => Ok (IVal v) | None => Err KeyError end.
Proof.
  intros. unfold gs_getitem. rewrite wf_no_dot_key by (auto using full_name_has_dot).
  rewrite full_name_has_dot, split_full_name by auto. unfold look.
  destruct (dget node (gs_states s)); auto.
Qed.

Lemma look_nodot : forall s node var v, wk s -> look s node var = Some v ->
  has_dot node = false /\ has_dot var = false.
Proof.
  intros. split.
  - unfold look in H0. destruct (dget node (gs_states s)) eqn:E; [|discriminate].
    now apply (wk_node _ H) in E.
  - now apply (wk_var _ H) in H0.
Qed.

Lemma getitem_full_iff : forall s node var v, wk s ->
  (gs_getitem s (full_name node var) = Ok (IVal v) <->
   has_dot node = false /\ has_dot var = false /\ look s node var = Some v).
Proof.
  intros. split.
  - intros E. unfold gs_getitem in E.
    rewrite wf_no_dot_key in E by (auto using full_name_has_dot).
    rewrite full_name_has_dot in E.
    destruct (split_dot (full_name node var)) as [|a [|b [|]]] eqn:ES; try discriminate.
    apply split_dot_two in ES. destruct ES as [ES [Ha Hb]].
    assert (Hn : has_dot node = false /\ has_dot var = false /\ a = node /\ b = var).
    { clear - ES Ha Hb. unfold full_name in ES. revert a ES Ha.
      induction node; simpl; intros a' ES Ha.
      - destruct a' as [|c a']; simpl in ES; inversion ES; subst; auto.
        exfalso. simpl in Ha. discriminate.
      - destruct a' as [|c a']; simpl in ES.
        + inversion ES; subst. exfalso. rewrite has_dot_app in Hb. simpl in Hb.
          rewrite orb_true_r in Hb. discriminate.
        + inversion ES; subst. simpl in Ha. destruct (Ascii.eqb c dot) eqn:E; [discriminate|].
          destruct (IHnode _ H1 Ha) as [? [? [? ?]]]. subst. simpl. try rewrite E. auto. }
    destruct Hn as [? [? [? ?]]]; subst. unfold look.
    destruct (dget node (gs_states s)); [|discriminate]. destruct (dget var d); [|discriminate].
    inversion E; auto.
  - intros [H1 [H2 H3]]. rewrite getitem_full by auto. now rewrite H3.
Qed.

Lemma look_In : forall s node var v, wk s ->
  (look s node var = Some v <-> In (node, var, v) (entries (gs_states s))).
Proof.
  intros s node var v W. unfold look, entries. rewrite in_flat_map. split.
  - destruct (dget node (gs_states s)) as [d|] eqn:E; [|discriminate]. intros H.
    apply dget_In in E, H. exists (node, d). split; auto. simpl.
    apply in_map_iff. exists (var, v). auto.
  - intros [[nd d] [H1 H2]]. simpl in H2. apply in_map_iff in H2.
    destruct H2 as [[vr u] [E H2]]. simpl in E. inversion E; subst.
    assert (G : dget node (gs_states s) = Some d) by (apply In_dget; auto; apply (wk_nodup _ W)).
    rewrite G. apply In_dget; auto. now apply (wk_node _ W) in G.
Qed.

Lemma NoDup_entries_keys : forall s, wk s -> NoDup (map fst (entries (gs_states s))).
Proof.
  intros s W. destruct W as [ND WN _]. unfold entries.
  assert (H : forall node d, In (node, d) (gs_states s) -> NoDup (dkeys d)).
  { intros. apply (WN node d). now apply In_dget. }
  clear WN. induction (gs_states s) as [|[node d] st IH]; simpl; [constructor|].
  inversion ND as [|? ? NI ND']; subst. rewrite map_app.
  assert (IH' : NoDup (map fst (entries st))).
  { apply IH; auto. intros. eapply H. right; eauto. }
  assert (D : NoDup (map fst (map (fun pv : string * value => (node, fst pv, snd pv)) d))).
  { rewrite map_map. simpl. assert (HD := H node d (or_introl eq_refl)). clear - HD.
    induction d as [|[k v] d IH]; simpl in *; [constructor|]. inversion HD; subst.
    constructor; auto. intros HI. apply H1. apply in_map_iff in HI.
    destruct HI as [[k' v'] [E HI]]. inversion E; subst.
    change k with (fst (k, v')). now apply in_map. }
  clear IH H.
  assert (DJ : forall x, In x (map fst (map (fun pv : string * value => (node, fst pv, snd pv)) d)) ->
               ~ In x (map fst (entries st))).
  { intros [nd vr] HI HJ. rewrite map_map in HI. apply in_map_iff in HI.
    destruct HI as [[k v] [E HI]]. simpl in E. inversion E; subst.
    apply in_map_iff in HJ. destruct HJ as [[[nd' vr'] u] [E' HJ]]. simpl in E'.
    inversion E'; subst. unfold entries in HJ. apply in_flat_map in HJ.
    destruct HJ as [[nd2 d2] [HJ1 HJ2]]. apply in_map_iff in HJ2.
    destruct HJ2 as [[k2 v2] [E2 HJ2]]. simpl in E2. inversion E2; subst.
    apply NI. change nd with (fst (nd, d2)). now apply in_map. }
  clear - D IH' DJ. unfold entries in *. revert D IH' DJ.
  generalize (map fst (map (fun pv : string * value => (node, fst pv, snd pv)) d)).
  generalize (map fst (flat_map (fun nd : string * dict value =>
     map (fun pv : string * value => (fst nd, fst pv, snd pv)) (snd nd)) st)).
  intros l2 l1 H1 H2 H3. induction l1; simpl; auto.
  inversion H1; subst. constructor.
  - rewrite in_app_iff. intros [|]; auto. apply (H3 a); simpl; auto.
  - apply IHl1; auto. intros. apply H3. simpl; auto.
Qed.

Lemma gs_names_entries : forall s : gs,
  gs_names s = map (fun e => full_name (fst (fst e)) (snd (fst e))) (entries (gs_states s)).
Proof.
  intros. unfold gs_names, entries. induction (gs_states s) as [|[node d] st IH]; simpl; auto.
  rewrite map_app, IH. f_equal. rewrite map_map. reflexivity.
Qed.

Lemma NoDup_map_inj_in : forall B C (f : B -> C) l,
  (forall x y, In x l -> In y l -> f x = f y -> x = y) -> NoDup l -> NoDup (map f l).
Proof.
  induction l; simpl; intros HI ND; [constructor|]. inversion ND; subst. constructor.
  - intros H. apply in_map_iff in H. destruct H as [y [E H]]. apply HI in E; auto. subst. auto.
  - apply IHl; auto.
Qed.

Lemma NoDup_names : forall s, wk s -> NoDup (gs_names s).
Proof.
  intros s W. rewrite gs_names_entries.
  rewrite <- (map_map fst (fun p => full_name (fst p) (snd p))).
  apply NoDup_map_inj_in; [|now apply NoDup_entries_keys].
  intros [a b] [c d] HA HC E. simpl in E.
  apply in_map_iff in HA, HC. destruct HA as [[[a' b'] v] [E1 HA]], HC as [[[c' d'] u] [E2 HC]].
  simpl in E1, E2; subst. inversion E1; inversion E2; subst.
  apply look_In in HA; auto. apply look_In in HC; auto.
  apply look_nodot in HA, HC; auto. destruct HA, HC.
  apply full_name_inj in E; auto. destruct E; subst; auto.
Qed.

(** ** The number of stored parameters. *)
Definition count (st : dict (dict value)) : nat := length (entries st).

Lemma count_cons : forall node d st, count ((node, d) :: st) = length d + count st.
Proof. intros. unfold count, entries. simpl. now rewrite app_length, map_length. Qed.

Lemma count_dset : forall st node d, NoDup (dkeys st) ->
  count (dset node d st) + match dget node st with Some d0 => length d0 | None => 0 end
  = length d + count st.
Proof.
  induction st as [|[k d1] st IH]; intros node d ND; simpl.
  - rewrite count_cons. lia.
  - inversion ND; subst. destruct (String.eqb node k) eqn:E.
    + rewrite !count_cons. lia.
    + rewrite !count_cons. specialize (IH node d H2). lia.
Qed.

Lemma set_count : forall s node var v fx s',
  wf s -> gs_set s node var v fx = (s', None) ->
  gs_np s = count (gs_states s) -> gs_np s' = count (gs_states s').
Proof.
  intros s node var v fx s' W H HC.
  assert (SP := set_spec _ _ _ _ _ _ _ W H). destruct SP as [W' [Hn [_ [HD [HL [HF [_ HP]]]]]]].
  destruct (HD eq_refl) as [D1 [D2 HS]]. clear HD.
  rewrite HP, D1, D2. simpl.
  (* the entries of both states, as NoDup lists of keys, compared by membership *)
  assert (K : forall t, wk t -> forall p, In p (map fst (entries (gs_states t))) <-> look t (fst p) (snd p) <> None).
  { intros t Wt [a b]. simpl. rewrite in_map_iff. split.
    - intros [[[a' b'] u] [E HI]]. simpl in E. inversion E; subst. apply look_In in HI; auto. congruence.
    - destruct (look t a b) eqn:E; [|congruence]. intros _. exists (a, b, v0). split; auto.
      apply look_In; auto. }
  assert (PS : store_value (gs_n s) v = match store_value (gs_n s) v with Ok w => Ok w | Err e => Err e end)
    by (destruct (store_value (gs_n s) v); auto).
  destruct (look s node var) eqn:EL.
  - (* same key set *)
    rewrite HC. unfold count. rewrite <- (map_length fst (entries (gs_states s))).
    rewrite <- (map_length fst (entries (gs_states s'))).
    apply Permutation_length. apply NoDup_Permutation; [now apply NoDup_entries_keys, wf_wk..|].
    intros [a b]. rewrite !K by auto. simpl. rewrite HL.
    destruct (String.eqb a node && String.eqb b var && negb (is_fixed s node var)) eqn:E; [|tauto].
    apply andb_true_iff in E. destruct E as [E E3]. apply eqb2 in E. destruct E; subst.
    rewrite EL. destruct HS as [HS|[w HS]].
    + rewrite HS in E3. discriminate.
    + rewrite HS. split; intros; discriminate.
  - assert (NF : is_fixed s node var = false).
    { destruct (is_fixed s node var) eqn:E; auto. apply (wf_fix _ W) in E. congruence. }
    destruct HS as [HS|[w HS]]; [congruence|].
    rewrite HC. unfold count. rewrite <- (map_length fst (entries (gs_states s))).
    rewrite <- (map_length fst (entries (gs_states s'))).
    change (S (length (map fst (entries (gs_states s))))) with
      (length ((node, var) :: map fst (entries (gs_states s)))).
    apply Permutation_length. apply NoDup_Permutation.
    + constructor; [|now apply NoDup_entries_keys, wf_wk]. rewrite K by auto. simpl. rewrite EL. tauto.
    + now apply NoDup_entries_keys, wf_wk.
    + intros [a b]. simpl. rewrite !K by auto. simpl. rewrite HL, HS, NF. simpl.
      rewrite andb_true_r. destruct (String.eqb a node && String.eqb b var) eqn:E.
      * apply eqb2 in E. destruct E; subst. split; auto; discriminate.
      * split; auto. intros [E'|]; auto. inversion E'; subst. rewrite !eqb_refl in E. discriminate.
Qed.

Lemma run_count : forall ops s, wf s -> run_clean s ops ->
  gs_np s = count (gs_states s) -> gs_np (run s ops) = count (gs_states (run s ops)).
Proof.
  unfold run. induction ops as [|o ops IH]; simpl; intros s W HC HN; auto.
  destruct HC as [HC1 HC2].
  assert (SA : forall l fx t s', wf t -> gs_np t = count (gs_states t) ->
               gs_set_all t l fx = (s', None) -> gs_np s' = count (gs_states s')).
  { induction l as [|[[node var] v] l IHl]; simpl; intros fx t s' Wt Ht E.
    - inversion E; subst; auto.
    - destruct (gs_set t node var v fx) as [s1 [e|]] eqn:E1; [discriminate|].
      eapply IHl; [| |eauto].
      + now apply (set_spec _ _ _ _ _ _ _ Wt E1).
      + eapply set_count; eauto. }
  apply IH; auto.
  - apply apply_op_inv; auto. intros. now apply (set_spec _ _ _ _ _ _ _ H H0).
  - destruct o; simpl in *.
    + destruct (gs_set s node var v fixed) as [s1 r] eqn:E. simpl in *. subst. eapply set_count; eauto.
    + unfold gs_update_dict in *. destruct (gs_set_all s (entries inputs) all_fixed) as [s1 r] eqn:E.
      simpl in *; subst. eauto.
    + unfold gs_update in *. destruct (_ && _); [discriminate|].
      destruct (gs_set_all s (entries (gs_states inputs)) all_fixed) as [s1 r] eqn:E.
      simpl in *; subst. eauto.
Qed.

(** ** Fixed parameters. *)
Lemma fixed_stable : forall ops s node var v, wf s ->
  is_fixed s node var = true -> look s node var = Some v ->
  is_fixed (run s ops) node var = true /\ look (run s ops) node var = Some v.
Proof.
  intros ops s node var v W HF HL.
  assert (G : wf (run s ops) /\ is_fixed (run s ops) node var = true /\ look (run s ops) node var = Some v).
  { apply (run_inv (fun t => wf t /\ is_fixed t node var = true /\ look t node var = Some v)); auto.
    intros t nd vr u fx t' r [Wt [Ft Lt]] E.
    destruct (set_spec _ _ _ _ _ _ _ Wt E) as [W' [_ [_ [_ [HL' [HF' _]]]]]].
    split; auto. rewrite HL', HF', Ft. split.
    - destruct r; auto.
    - destruct r; auto.
      destruct (String.eqb node nd && String.eqb var vr && negb (is_fixed t nd vr)) eqn:E1; auto.
      apply andb_true_iff in E1. destruct E1 as [E1 E2]. apply eqb2 in E1. destruct E1; subst.
      rewrite Ft in E2. discriminate. }
  tauto.
Qed.

(** ** A sequence of sets. *)
Lemma set_all_spec : forall l s fx s', wf s -> gs_set_all s l fx = (s', None) ->
  NoDup (map fst l) ->
  wf s' /\ gs_n s' = gs_n s /\
  (forall e, In e l -> has_dot (fst (fst e)) = false /\ has_dot (snd (fst e)) = false) /\
  (forall nd vr, look s' nd vr =
     match find (fun e => String.eqb nd (fst (fst e)) && String.eqb vr (snd (fst e))) l with
     | Some e => if is_fixed s nd vr then look s nd vr
                 else match store_value (gs_n s) (snd e) with Ok w => Some w | Err _ => None end
     | None => look s nd vr
     end) /\
  (forall nd vr, is_fixed s' nd vr = is_fixed s nd vr ||
     (fx && existsb (fun e => String.eqb nd (fst (fst e)) && String.eqb vr (snd (fst e))) l)) /\
  (forall e, In e l -> is_fixed s (fst (fst e)) (snd (fst e)) = true \/
     exists w, store_value (gs_n s) (snd e) = Ok w).
Proof.
  induction l as [|[[node var] v] l IH]; simpl; intros s fx s' W E ND.
  - inversion E; subst. split; [assumption|]. split; [reflexivity|].
    split; [tauto|]. split; [auto|]. split; [|tauto].
    intros; destruct fx; simpl; rewrite ?orb_false_r; auto.
  - destruct (gs_set s node var v fx) as [s1 [e|]] eqn:E1; [discriminate|].
    destruct (set_spec _ _ _ _ _ _ _ W E1) as [W1 [N1 [_ [D1 [L1 [F1 _]]]]]].
    destruct (D1 eq_refl) as [DA [DB DC]]. inversion ND; subst.
    destruct (IH _ _ _ W1 E H2) as [W' [N' [D' [L' [F' S']]]]].
    assert (NIN : forall e, In e l -> String.eqb (fst (fst e)) node && String.eqb (snd (fst e)) var = false).
    { intros [[a b] u] HI. simpl. destruct (String.eqb a node && String.eqb b var) eqn:EE; auto.
      apply eqb2 in EE. destruct EE; subst. exfalso. apply H1.
      change (node, var) with (fst (node, var, u)). now apply in_map. }
    split; auto. split; [congruence|]. split; [|split; [|split]].
    + intros e [<-|HI]; auto.
    + intros nd vr. rewrite L'. rewrite N1.
      destruct (String.eqb nd node && String.eqb vr var) eqn:EE.
      * apply eqb2 in EE. destruct EE; subst.
        assert (find (fun e => String.eqb node (fst (fst e)) && String.eqb var (snd (fst e))) l = None).
        { clear - NIN. induction l as [|e l IHl]; simpl; auto.
          rewrite (String.eqb_sym node), (String.eqb_sym var), NIN by (simpl; auto).
          apply IHl. intros; apply NIN; simpl; auto. }
        rewrite H. rewrite L1, !eqb_refl. simpl. destruct (is_fixed s node var); simpl; auto.
      * assert (look s1 nd vr = look s nd vr) by (rewrite L1, EE; auto).
        assert (is_fixed s1 nd vr = is_fixed s nd vr)
          by (rewrite F1, <- andb_assoc, EE, andb_false_r, orb_false_r; auto).
        rewrite H, H0. reflexivity.
    + intros nd vr. rewrite F', F1. destruct fx; simpl; rewrite ?orb_false_r; auto.
      now rewrite orb_assoc.
    + intros e [<-|HI]; simpl; auto.
      destruct (S' e HI) as [HF|HS].
      * left. rewrite F1 in HF. apply orb_true_iff in HF. destruct HF as [|HF]; auto.
        rewrite <- andb_assoc, NIN, andb_false_r in HF by auto. discriminate.
      * right. now rewrite <- N1.
Qed.

Lemma find_key : forall (l : list (string * string * value)) nd vr u, NoDup (map fst l) ->
  In (nd, vr, u) l ->
  find (fun e => String.eqb nd (fst (fst e)) && String.eqb vr (snd (fst e))) l = Some (nd, vr, u).
Proof.
  induction l as [|[[a b] w] l IH]; simpl; intros nd vr u ND HI; [tauto|].
  inversion ND; subst. destruct HI as [E|HI].
  - inversion E; subst. now rewrite !eqb_refl.
  - destruct (String.eqb nd a && String.eqb vr b) eqn:E; auto.
    apply eqb2 in E. destruct E; subst. exfalso. apply H1.
    change (a, b) with (fst (a, b, u)). now apply in_map.
Qed.

Lemma find_no_key : forall (l : list (string * string * value)) nd vr,
  ~ In (nd, vr) (map fst l) ->
  find (fun e => String.eqb nd (fst (fst e)) && String.eqb vr (snd (fst e))) l = None.
Proof.
  induction l as [|[[a b] w] l IH]; simpl; intros nd vr HI; auto.
  destruct (String.eqb nd a && String.eqb vr b) eqn:E; auto.
  apply eqb2 in E. destruct E; subst. tauto.
Qed.

(** A sequence of sets succeeds when each value can be stored. *)
Lemma set_all_ok : forall l s fx, wf s ->
  (forall e, In e l -> has_dot (fst (fst e)) = false /\ has_dot (snd (fst e)) = false /\
                       exists w, store_value (gs_n s) (snd e) = Ok w) ->
  exists s', gs_set_all s l fx = (s', None).
Proof.
  induction l as [|[[node var] v] l IH]; simpl; intros s fx W H; eauto.
  destruct (gs_set s node var v fx) as [s1 r] eqn:E.
  destruct (set_spec _ _ _ _ _ _ _ W E) as [W1 [N1 [R [_ [_ [_ [RV _]]]]]]].
  destruct (H _ (or_introl eq_refl)) as [HA [HB [w HC]]]. simpl in *.
  destruct R as [R|R]; subst r.
  - apply IH; auto. intros. rewrite N1. auto.
  - destruct (RV eq_refl) as [|[|]]; congruence.
Qed.

End P.
