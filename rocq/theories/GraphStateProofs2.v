(** More lemmas about [GraphStateModel]: update, extraction, conversion, concatenation. *)
From Coq Require Import String Ascii List Bool Arith ZArith Lia Permutation.
From Verif Require Import Base BaseFacts GraphStateModel GraphStateProofs.
Import ListNotations.
Open Scope string_scope.
Open Scope list_scope.
Open Scope nat_scope.

Section P.
Context {A : Type}.
Notation gs := (gs A).
Notation value := (value A).

Hint Resolve wf_wk : core.

(** ** Dict comprehensions. *)
Lemma dmap_res_ok : forall V W (f : V -> result W) d d',
  dmap_res f d = Ok d' ->
  dkeys d' = dkeys d /\
  forall k, match dget k d with
            | Some v => exists w, f v = Ok w /\ dget k d' = Some w
            | None => dget k d' = None
            end.
Proof.
  induction d as [|[k v] d IH]; simpl; intros d' H.
  - inversion H; subst. simpl. auto.
  - destruct (f v) as [w|] eqn:E; [|discriminate].
    destruct (dmap_res f d) as [d2|] eqn:E2; [|discriminate]. inversion H; subst. simpl.
    destruct (IH _ eq_refl) as [IH1 IH2]. split; [now rewrite IH1|].
    intros k0. simpl. destruct (String.eqb k0 k); eauto. apply IH2.
Qed.

Lemma dmap_res_total : forall V W (f : V -> result W) d,
  NoDup (dkeys d) ->
  (forall k v, dget k d = Some v -> exists w, f v = Ok w) -> exists d', dmap_res f d = Ok d'.
Proof.
  induction d as [|[k v] d IH]; simpl; intros ND H; eauto.
  inversion ND; subst.
  destruct (H k v) as [w Hw]; [now rewrite eqb_refl|]. rewrite Hw.
  destruct IH as [d' Hd]; auto.
  - intros k0 v0 H0. apply (H k0). destruct (String.eqb k0 k) eqn:E; auto.
    apply String.eqb_eq in E; subst. exfalso. apply H2. apply dget_keys. congruence.
  - rewrite Hd. eauto.
Qed.

(** ** extract_single_sample *)
Definition sample_of (n : nat) (v : value) (i : nat) : option value :=
  if n =? 1 then Some v
  else match v with Arr l => nth_error l i | Atom _ => None end.

Lemma extract_spec : forall (s : gs) z t, gs_extract s z = Ok t ->
  (0 <= z < Z.of_nat (gs_n s))%Z /\ gs_n t = 1 /\ gs_np t = gs_np s /\ gs_fixed t = [] /\
  dkeys (gs_states t) = dkeys (gs_states s) /\
  (forall node, match dget node (gs_states s) with
                | Some d => exists d', dget node (gs_states t) = Some d' /\ dkeys d' = dkeys d
                | None => dget node (gs_states t) = None end) /\
  forall node var, look t node var =
    match look s node var with
    | Some v => sample_of (gs_n s) v (Z.to_nat z)
    | None => None
    end.
Proof.
  intros s z t H. unfold gs_extract in H.
  destruct (gs_n s =? 0) eqn:E0; [discriminate|]. apply Nat.eqb_neq in E0.
  destruct ((z <? 0)%Z || (Z.of_nat (gs_n s) <=? z)%Z) eqn:EZ; [discriminate|].
  apply orb_false_iff in EZ. destruct EZ as [EZ1 EZ2].
  apply Z.ltb_ge in EZ1. apply Z.leb_gt in EZ2.
  destruct (dmap_res _ (gs_states s)) as [st|] eqn:ED; [|discriminate].
  inversion H; subst. simpl. apply dmap_res_ok in ED. destruct ED as [K G].
  split; [lia|]. split; [auto|]. split; [auto|]. split; [auto|]. split; [auto|]. split.
  - intros node. specialize (G node). destruct (dget node (gs_states s)) as [d|]; auto.
    destruct G as [d' [G1 G2]]. exists d'. split; auto. now apply dmap_res_ok in G1.
  - intros node var. unfold look. simpl. specialize (G node).
    destruct (dget node (gs_states s)) as [d|].
    + destruct G as [d' [G1 G2]]. rewrite G2. apply dmap_res_ok in G1. destruct G1 as [_ G1].
      specialize (G1 var). destruct (dget var d) as [v|]; auto.
      destruct G1 as [w [G3 G4]]. rewrite G4. unfold sample_of.
      destruct (gs_n s =? 1); [congruence|]. unfold value_at in G3. destruct v; [discriminate|].
      destruct (nth_error l (Z.to_nat z)); congruence.
    + now rewrite G.
Qed.

Lemma extract_total : forall (s : gs) z, wf s ->
  (0 <= z < Z.of_nat (gs_n s))%Z -> exists t, gs_extract s z = Ok t.
Proof.
  intros s z W HZ. unfold gs_extract.
  assert (gs_n s <> 0) by (pose proof (wf_n _ W); lia). apply Nat.eqb_neq in H. rewrite H.
  assert ((z <? 0)%Z || (Z.of_nat (gs_n s) <=? z)%Z = false) as ->.
  { apply orb_false_iff. split; [apply Z.ltb_ge | apply Z.leb_gt]; lia. }
  edestruct (@dmap_res_total (dict value) (dict value)
    (dmap_res (fun v => if gs_n s =? 1 then Ok v else value_at v (Z.to_nat z))) (gs_states s))
    as [d' Hd].
  - apply W.
  - intros node d Hn. apply dmap_res_total; [now apply (wf_node _ W) in Hn|].
    intros var v Hv. destruct (gs_n s =? 1) eqn:E1; eauto.
    assert (L : look s node var = Some v) by (unfold look; now rewrite Hn).
    apply (wf_var _ W) in L. destruct L as [_ [L|[l [-> L]]]].
    + apply Nat.eqb_neq in E1. lia.
    + simpl. destruct (nth_error l (Z.to_nat z)) eqn:EN; eauto.
      apply nth_error_None in EN. lia.
  - rewrite Hd. eauto.
Qed.

Lemma extract_wk : forall (s : gs) z t, wf s -> gs_extract s z = Ok t -> wk t.
Proof.
  intros s z t W H. apply extract_spec in H. destruct H as [_ [_ [_ [_ [K [G L]]]]]].
  constructor.
  - rewrite K. apply W.
  - intros node d Hd. specialize (G node). destruct (dget node (gs_states s)) eqn:E.
    + destruct G as [d' [G1 G2]]. rewrite G1 in Hd. inversion Hd; subst. rewrite G2.
      now apply (wf_node _ W) in E.
    + congruence.
  - intros node var v Hv. rewrite L in Hv. destruct (look s node var) eqn:E; [|discriminate].
    now apply (wf_var _ W) in E.
Qed.

Lemma collect_ok : forall B (l : list (result B)) bs, collect l = Ok bs ->
  l = map Ok bs.
Proof.
  induction l as [|[b|e] l IH]; simpl; intros bs H; try discriminate.
  - inversion H; auto.
  - destruct (collect l); [|discriminate]. inversion H; subst. simpl. f_equal. auto.
Qed.

Lemma collect_total : forall B (l : list (result B)),
  (forall r, In r l -> exists b, r = Ok b) -> exists bs, collect l = Ok bs.
Proof.
  induction l as [|[b|e] l IH]; simpl; intros H; eauto.
  - destruct IH as [bs E]; auto. rewrite E. eauto.
  - destruct (H (Err e)) as [b E]; auto. discriminate.
Qed.

Lemma iterate_spec : forall (s : gs), wf s ->
  exists l, gs_iterate s = Ok l /\ length l = gs_n s /\
    forall i, i < gs_n s -> exists t, nth_error l i = Some t /\ gs_extract s (Z.of_nat i) = Ok t.
Proof.
  intros s W. unfold gs_iterate.
  destruct (collect_total _ (map (fun i => gs_extract s (Z.of_nat i)) (seq 0 (gs_n s)))) as [bs Hb].
  - intros r HI. apply in_map_iff in HI. destruct HI as [i [<- HI]]. apply in_seq in HI.
    apply extract_total; auto. lia.
  - exists bs. split; auto. apply collect_ok in Hb.
    assert (HL : length bs = gs_n s).
    { apply (f_equal (@length _)) in Hb. rewrite !map_length, seq_length in Hb. lia. }
    split; auto. intros i Hi.
    assert (E : nth_error (map (fun i => gs_extract s (Z.of_nat i)) (seq 0 (gs_n s))) i =
                nth_error (map Ok bs) i) by now rewrite Hb.
    rewrite nth_error_map in E. rewrite (nth_error_nth' _ 0) in E by (rewrite seq_length; lia).
    rewrite seq_nth in E by lia. simpl in E. rewrite nth_error_map in E.
    destruct (nth_error bs i); simpl in E; [|discriminate]. inversion E. eauto.
Qed.

(** ** update *)
Lemma update_spec : forall (s t : gs) fx s', wf s -> wk t ->
  gs_update s t fx = (s', None) ->
  wf s' /\ gs_n s' = gs_n s /\ (gs_n s = gs_n t \/ gs_n t = 1) /\
  (forall node var, look s' node var =
     match look t node var with
     | Some v => if is_fixed s node var then look s node var
                 else match store_value (gs_n s) v with Ok w => Some w | Err _ => None end
     | None => look s node var
     end) /\
  (forall node var v, look t node var = Some v -> is_fixed s node var = false ->
     exists w, store_value (gs_n s) v = Ok w) /\
  (forall node var, is_fixed s' node var =
     is_fixed s node var || (fx && match look t node var with Some _ => true | None => false end)).
Proof.
  intros s t fx s' W K H. unfold gs_update in H.
  destruct (negb (gs_n s =? gs_n t) && negb (gs_n t =? 1)) eqn:EN; [discriminate|].
  assert (N := NoDup_entries_keys _ K).
  destruct (set_all_spec _ _ _ _ W H N) as [W' [HN [HD [HL [HF HS]]]]].
  split; auto. split; auto. split.
  { apply andb_false_iff in EN. rewrite !negb_false_iff, !Nat.eqb_eq in EN. lia. }
  assert (FE : forall node var,
    find (fun e => String.eqb node (fst (fst e)) && String.eqb var (snd (fst e))) (entries (gs_states t)) =
    match look t node var with Some v => Some (node, var, v) | None => None end).
  { intros. destruct (look t node var) eqn:E.
    - apply find_key; auto. now apply look_In.
    - apply find_no_key. intros HI. apply in_map_iff in HI. destruct HI as [[[a b] u] [E1 HI]].
      simpl in E1; inversion E1; subst. apply look_In in HI; auto. congruence. }
  split; [|split].
  - intros. rewrite HL, FE. destruct (look t node var); auto.
  - intros node var v HV HX. apply look_In in HV; auto. apply HS in HV. simpl in HV.
    destruct HV as [|]; [congruence|auto].
  - intros. rewrite HF. f_equal. f_equal.
    assert (EX : forall l, existsb (fun e : string * string * value => String.eqb node (fst (fst e)) && String.eqb var (snd (fst e))) l =
      match find (fun e => String.eqb node (fst (fst e)) && String.eqb var (snd (fst e))) l with
      | Some _ => true | None => false end).
    { induction l as [|e l IH]; simpl; auto.
      destruct (String.eqb node (fst (fst e)) && String.eqb var (snd (fst e))); simpl; auto. }
    rewrite EX, FE. destruct (look t node var); auto.
Qed.

(** ** to_dict and from_dict *)
Lemma to_dict_entries : forall (s : gs), wk s ->
  gs_to_dict s = map (fun e => (full_name (fst (fst e)) (snd (fst e)), snd e)) (entries (gs_states s)).
Proof.
  intros s W. unfold gs_to_dict.
  assert (F : forall (st : dict (dict value)) acc,
    fold_left (fun d nd => fold_left (fun d pv => dset (full_name (fst nd) (fst pv)) (snd pv) d)
                 (snd nd) d) st acc =
    fold_left (fun d e => dset (full_name (fst (fst e)) (snd (fst e))) (snd e) d) (entries st) acc).
  { induction st as [|[node d] st IH]; simpl; intros; auto.
    unfold entries in *. simpl. rewrite fold_left_app, IH. f_equal.
    clear. revert acc. induction d as [|[k v] d IH]; simpl; intros; auto. }
  rewrite F. clear F.
  assert (N := NoDup_names _ W). rewrite gs_names_entries in N.
  assert (G : forall l (acc : dict value),
    NoDup (dkeys acc ++ map (fun e : string * string * value => full_name (fst (fst e)) (snd (fst e))) l) ->
    fold_left (fun d e => dset (full_name (fst (fst e)) (snd (fst e))) (snd e) d) l acc =
    acc ++ map (fun e => (full_name (fst (fst e)) (snd (fst e)), snd e)) l).
  { induction l as [|e l IH]; simpl; intros acc HN; [now rewrite app_nil_r|].
    rewrite dset_new.
    - rewrite IH.
      + rewrite <- app_assoc. reflexivity.
      + unfold dkeys in *. rewrite map_app. simpl. rewrite <- app_assoc. exact HN.
    - apply NoDup_remove_2 in HN. rewrite in_app_iff in HN. tauto. }
  rewrite G; auto.
Qed.

Lemma fold_res_from_dict : forall (l : list (string * string * value)) (s : gs), 
  fold_res (@from_dict_step A) s
    (map (fun e => (full_name (fst (fst e)) (snd (fst e)), DVal (snd e))) l) =
  if forallb (fun e => negb (has_dot (fst (fst e))) && negb (has_dot (snd (fst e)))) l then
    match gs_set_all s l false with (s', None) => Ok s' | (_, Some e) => Err e end
  else fold_res (@from_dict_step A) s
    (map (fun e => (full_name (fst (fst e)) (snd (fst e)), DVal (snd e))) l).
Proof.
  induction l as [|[[node var] v] l IH]; intros s; [reflexivity|].
  destruct (forallb _ (_ :: l)) eqn:EF; auto.
  simpl in EF. apply andb_true_iff in EF. destruct EF as [EF1 EF2].
  apply andb_true_iff in EF1. rewrite !negb_true_iff in EF1. destruct EF1 as [D1 D2].
  simpl map. cbn [fold_res]. unfold from_dict_step at 1. simpl fst. simpl snd.
  rewrite full_name_has_dot, split_full_name by auto. simpl gs_set_all.
  destruct (gs_set s node var v false) as [s1 [e|]] eqn:E; auto.
  rewrite IH. rewrite EF2. reflexivity.
Qed.

Lemma fresh_look : forall n nd vr, look (@gs_fresh A n) nd vr = None.
Proof. reflexivity. Qed.
Lemma fresh_fixed : forall n nd vr, is_fixed (@gs_fresh A n) nd vr = false.
Proof. reflexivity. Qed.

(** Storing the entries of a well-formed state into a fresh one of the same size. *)
Lemma rebuild : forall (s : gs) (l : list (string * string * value)), wf s ->
  NoDup (map fst l) ->
  (forall node var v, look s node var = Some v <-> In (node, var, v) l) ->
  exists r, gs_set_all (gs_fresh (gs_n s)) l false = (r, None) /\ wf r /\
            gs_n r = gs_n s /\ forall node var, look r node var = look s node var.
Proof.
  intros s l W N HI.
  assert (WF := @wf_fresh A _ (wf_n _ W)).
  destruct (set_all_ok l (gs_fresh (gs_n s)) false WF) as [r Hr].
  - intros [[node var] v] HE. simpl. apply HI in HE.
    destruct (look_nodot _ _ _ _ (wf_wk _ W) HE) as [D1 D2].
    apply (wf_var _ W) in HE. destruct HE as [_ HS].
    repeat split; auto. exists v. now apply store_value_idem.
  - exists r. split; auto.
    destruct (set_all_spec _ _ _ _ WF Hr N) as [W' [HN [_ [HL _]]]].
    split; auto. split; auto. intros node var. rewrite HL, fresh_look, fresh_fixed. simpl.
    destruct (look s node var) eqn:E.
    + assert (HE := E). apply HI in HE. rewrite (find_key _ _ _ _ N HE). simpl.
      apply (wf_var _ W) in E. rewrite store_value_idem by tauto. auto.
    + rewrite find_no_key; auto. intros HX. apply in_map_iff in HX.
      destruct HX as [[[a b] u] [E1 HX]]. simpl in E1; inversion E1; subst.
      apply HI in HX. congruence.
Qed.

Lemma gs_new_of_nat : forall n, 1 <= n -> @gs_new A (Z.of_nat n) = Ok (gs_fresh n).
Proof.
  intros. unfold gs_new. destruct (Z.of_nat n <? 1)%Z eqn:E.
  - apply Z.ltb_lt in E. lia.
  - now rewrite Nat2Z.id.
Qed.

Lemma nodot_entries : forall (s : gs), wk s ->
  forallb (fun e : string * string * value => negb (has_dot (fst (fst e))) && negb (has_dot (snd (fst e))))
          (entries (gs_states s)) = true.
Proof.
  intros s K. apply forallb_forall. intros [[node var] v] HI. apply look_In in HI; auto.
  apply look_nodot in HI; auto. destruct HI as [D1 D2]. simpl. rewrite D1, D2. reflexivity.
Qed.

Lemma dict_roundtrip : forall (s : gs), wf s ->
  exists r, gs_from_dict (map (fun kv => (fst kv, DVal (snd kv))) (gs_to_dict s)) (Z.of_nat (gs_n s)) = Ok r /\
    wf r /\ gs_n r = gs_n s /\ forall node var, look r node var = look s node var.
Proof.
  intros s W. unfold gs_from_dict. rewrite gs_new_of_nat by apply W. simpl bind.
  rewrite to_dict_entries by auto. rewrite map_map. simpl.
  rewrite (fold_res_from_dict (entries (gs_states s))). rewrite nodot_entries by auto.
  destruct (rebuild s (entries (gs_states s)) W) as [r [H1 H2]].
  - now apply NoDup_entries_keys, wf_wk.
  - intros. apply look_In; auto.
  - exists r. rewrite H1. auto.
Qed.

Lemma fold_res_from_table : forall (l : list (string * string * value)) (s : gs), wf s ->
  gs_n s <> 1 ->
  (forall e, In e l -> has_dot (fst (fst e)) = false /\ has_dot (snd (fst e)) = false /\
             exists v, snd e = Arr v) ->
  fold_res (@from_table_step A) s
    (map (fun e => (full_name (fst (fst e)) (snd (fst e)), as_column (snd e))) l) =
  match gs_set_all s l false with (s', None) => Ok s' | (_, Some e) => Err e end.
Proof.
  induction l as [|[[node var] v] l IH]; intros s W HN HE; [reflexivity|].
  destruct (HE _ (or_introl eq_refl)) as [D1 [D2 [u D3]]]. simpl in D1, D2, D3. subst v.
  simpl map. cbn [fold_res]. unfold from_table_step at 1. simpl fst. simpl snd.
  rewrite split_full_name by auto. simpl gs_set_all.
  apply Nat.eqb_neq in HN. rewrite HN. simpl as_column.
  destruct (gs_set s node var (Arr u) false) as [s1 [e|]] eqn:E; auto.
  destruct (set_spec _ _ _ _ _ _ _ W E) as [W1 [N1 _]].
  apply IH; auto.
  - rewrite N1. now apply Nat.eqb_neq.
  - intros e0 H0. apply HE. simpl; auto.
Qed.

Lemma table_roundtrip : forall (s : gs), wf s -> 2 <= gs_n s ->
  (exists node var v, look s node var = Some v) ->
  table_len (gs_to_table s) = gs_n s /\
  exists r, gs_from_table (gs_to_table s) = Ok r /\
    wf r /\ gs_n r = gs_n s /\ forall node var, look r node var = look s node var.
Proof.
  intros s W HN [node0 [var0 [v0 H0]]].
  assert (ET : gs_to_table s =
    map (fun e => (full_name (fst (fst e)) (snd (fst e)), as_column (snd e))) (entries (gs_states s))).
  { unfold gs_to_table, entries. induction (gs_states s) as [|[node d] st IH]; simpl; auto.
    rewrite !map_app, IH. f_equal. rewrite !map_map. reflexivity. }
  assert (AR : forall e, In e (entries (gs_states s)) -> exists l, snd e = Arr l /\ length l = gs_n s).
  { intros [[node var] v] HI. apply look_In in HI; auto. apply (wf_var _ W) in HI.
    destruct HI as [_ [HI|[l [HI1 HI2]]]]; [lia|]. simpl. eauto. }
  assert (TL : table_len (gs_to_table s) = gs_n s).
  { rewrite ET. apply look_In in H0; auto. destruct (entries (gs_states s)) as [|e l] eqn:EE.
    - destruct H0.
    - simpl. destruct (AR e) as [u [E1 E2]]; [now left|]. rewrite E1. auto. }
  split; auto. unfold gs_from_table. rewrite TL, gs_new_of_nat by lia. simpl bind. rewrite ET.
  rewrite fold_res_from_table; simpl; try lia; try (apply wf_fresh; lia).
  - destruct (rebuild s (entries (gs_states s)) W) as [r [H1 H2]].
    + now apply NoDup_entries_keys, wf_wk.
    + intros. apply look_In; auto.
    + exists r. rewrite H1. auto.
  - intros e HI. destruct (AR e HI) as [u [E1 _]]. destruct e as [[node var] v].
    apply look_In in HI; auto. apply look_nodot in HI; auto. simpl in *. destruct HI; eauto.
Qed.

(** ** from_list *)
Lemma same_names_iff : forall l1 l2, same_names l1 l2 = true <-> (forall x, In x l1 <-> In x l2).
Proof.
  intros. unfold same_names. rewrite andb_true_iff, !forallb_forall. split.
  - intros [H1 H2] x. split; intros H; apply smem_In; auto.
  - intros H. split; intros x Hx; apply smem_In, H; auto.
Qed.

Lemma In_names : forall (s : gs) x, wk s ->
  (In x (gs_names s) <-> exists node var v, look s node var = Some v /\ x = full_name node var).
Proof.
  intros s x K. rewrite gs_names_entries, in_map_iff. split.
  - intros [[[node var] v] [E HI]]. exists node, var, v. split; auto. now apply look_In.
  - intros [node [var [v [HL ->]]]]. exists (node, var, v). split; auto. now apply look_In.
Qed.

Lemma In_names_look : forall (s : gs) node var, wk s -> has_dot node = false -> has_dot var = false ->
  (In (full_name node var) (gs_names s) <-> look s node var <> None).
Proof.
  intros s node var K D1 D2. rewrite In_names by auto. split.
  - intros [n' [v' [v [HL E]]]]. destruct (look_nodot _ _ _ _ K HL).
    apply full_name_inj in E; auto. destruct E; subst. congruence.
  - destruct (look s node var) eqn:E; [|congruence]. intros _. eauto.
Qed.

(** The samples of one parameter in a state. *)
Definition col (s : gs) (node var : string) : list value :=
  match look s node var with Some v => as_column v | None => [] end.

Lemma concat_values_spec : forall (l : list gs) node var,
  has_dot node = false -> has_dot var = false ->
  (forall s, In s l -> wk s /\ look s node var <> None) ->
  concat_values (full_name node var) l = Ok (flat_map (fun s => col s node var) l).
Proof.
  induction l as [|s l IH]; simpl; intros node var D1 D2 H; auto.
  destruct (H s (or_introl eq_refl)) as [K HL]. rewrite getitem_full by auto.
  unfold col at 1. destruct (look s node var); [|congruence].
  rewrite IH; auto.
Qed.

Lemma from_list_fold : forall (l : list gs) order (s : gs), wf s ->
  (forall x, In x order -> exists node var, x = full_name node var /\ has_dot node = false /\
      has_dot var = false /\ (forall t, In t l -> wk t /\ look t node var <> None)) ->
  fold_res (from_list_step l) s order =
  match gs_set_all s (map (fun x => match split_dot x with
                                    | [node; var] => (node, var, Arr (flat_map (fun t => col t node var) l))
                                    | _ => ("", "", Arr []) end) order) false with
  | (s', None) => Ok s' | (_, Some e) => Err e end.
Proof.
  induction order as [|x order IH]; intros s W H; [reflexivity|].
  destruct (H x (or_introl eq_refl)) as [node [var [E [D1 [D2 HL]]]]]. subst x.
  simpl map. cbn [fold_res]. unfold from_list_step at 1.
  rewrite split_full_name by auto. rewrite concat_values_spec by auto. simpl gs_set_all.
  destruct (gs_set s node var _ false) as [s1 [e|]] eqn:ES; auto.
  destruct (set_spec _ _ _ _ _ _ _ W ES) as [W1 _].
  apply IH; auto. intros y Hy. apply H. simpl; auto.
Qed.

Lemma from_list_spec : forall (l : list gs) s0 l0 order, l = s0 :: l0 ->
  (forall s, In s l -> wk s /\ 1 <= gs_n s /\
     forall node var v, look s node var = Some v -> length (as_column v) = gs_n s) ->
  (forall s, In s l -> forall x, In x (gs_names s0) <-> In x (gs_names s)) ->
  Permutation order (gs_names s0) ->
  exists r, gs_from_list order l = Ok r /\ wf r /\ gs_n r = list_sum (map (fun s => gs_n s) l) /\
    forall node var, look r node var =
      match look s0 node var with
      | Some _ => Some (Arr (flat_map (fun s => col s node var) l))
      | None => None
      end.
Proof.
  intros l s0 l0 order El HG HS HP.
  assert (I0 : In s0 l) by (subst l; simpl; auto).
  assert (K0 : wk s0) by (apply HG; auto).
  assert (HT : 1 <= list_sum (map (fun s => gs_n s) l)).
  { subst l. simpl. destruct (HG s0) as [_ [H1 _]]; auto. lia. }
  unfold gs_from_list. rewrite El. rewrite <- El.
  assert (FB : forallb (fun s => same_names (gs_names s0) (gs_names s)) l = true).
  { apply forallb_forall. intros s Hs. apply same_names_iff. auto. }
  rewrite FB. rewrite gs_new_of_nat by auto. simpl bind.
  assert (HL : forall s node var, In s l -> look s0 node var <> None -> look s node var <> None).
  { intros s node var Hs H. destruct (look s0 node var) eqn:E; [|congruence].
    destruct (look_nodot _ _ _ _ K0 E) as [D1 D2].
    apply In_names_look; auto; [apply HG; auto|]. apply HS; auto. apply In_names_look; auto; congruence. }
  set (total := list_sum (map (fun s => gs_n s) l)) in *.
  assert (CL : forall node var, look s0 node var <> None ->
               length (flat_map (fun s => col s node var) l) = total).
  { intros node var H.
    assert (G : forall l', (forall s, In s l' -> In s l) ->
      length (flat_map (fun s => col s node var) l') = list_sum (map (fun s => gs_n s) l')).
    { induction l' as [|s l' IH]; simpl; intros HI; auto. rewrite app_length, IH by auto.
      f_equal. assert (Hs := HL s node var (HI s (or_introl eq_refl)) H).
      destruct (look s node var) eqn:E; [|congruence]. unfold col. rewrite E.
      destruct (HG s) as [_ [_ HH]]; auto. eauto. }
    apply G; auto. }
  assert (HO : forall x, In x order -> exists node var, x = full_name node var /\
     has_dot node = false /\ has_dot var = false /\ look s0 node var <> None /\
     (forall t, In t l -> wk t /\ look t node var <> None)).
  { intros x Hx. eapply Permutation_in in Hx; eauto. apply In_names in Hx; auto.
    destruct Hx as [node [var [v [Hv ->]]]]. exists node, var.
    destruct (look_nodot _ _ _ _ K0 Hv).
    split; [auto|]. split; [auto|]. split; [auto|]. split; [congruence|].
    intros t Ht. split; [apply HG; auto|]. eapply HL; eauto. congruence. }
  rewrite from_list_fold; [|now apply wf_fresh|].
  2:{ intros x Hx. destruct (HO x Hx) as [node [var [? [? [? [? ?]]]]]]. exists node, var; auto. }
  set (f := fun x => match split_dot x with
                     | [node; var] => (node, var, Arr (flat_map (fun t => col t node var) l))
                     | _ => ("", "", Arr []) end).
  assert (WF := @wf_fresh A total HT).
  assert (ND : NoDup (map fst (map f order))).
  { assert (NO : NoDup order) by (eapply Permutation_NoDup; [apply Permutation_sym; eauto|now apply NoDup_names]).
    rewrite map_map. apply NoDup_map_inj_in; auto.
    intros x y Hx Hy E. destruct (HO x Hx) as [a [b [Ex [D1 [D2 _]]]]].
    destruct (HO y Hy) as [c [d [Ey [D3 [D4 _]]]]]. subst x y. unfold f in E.
    rewrite !split_full_name in E by auto. simpl in E. inversion E; subst; auto. }
  destruct (set_all_ok (map f order) (gs_fresh total) false WF) as [r Hr].
  { intros e He. apply in_map_iff in He. destruct He as [x [<- Hx]].
    destruct (HO x Hx) as [a [b [-> [D1 [D2 [H0 _]]]]]]. unfold f. rewrite split_full_name by auto.
    simpl. repeat split; auto. exists (Arr (flat_map (fun t => col t a b) l)).
    apply store_value_idem. right. eauto. }
  exists r. rewrite Hr. split; auto.
  destruct (set_all_spec _ _ _ _ WF Hr ND) as [W' [HN [_ [HLk _]]]].
  split; auto. split; auto. intros node var. rewrite HLk, fresh_look, fresh_fixed.
  destruct (look s0 node var) eqn:E.
  - destruct (look_nodot _ _ _ _ K0 E) as [D1 D2].
    assert (HI : In (node, var, Arr (flat_map (fun t => col t node var) l)) (map f order)).
    { apply in_map_iff. exists (full_name node var). split.
      - unfold f. now rewrite split_full_name.
      - eapply Permutation_in; [apply Permutation_sym; eauto|]. apply In_names_look; auto. congruence. }
    rewrite (find_key _ _ _ _ ND HI). simpl snd.
    rewrite store_value_idem; auto. right. eexists; split; eauto. apply CL. congruence.
  - rewrite find_no_key; auto. intros HX. rewrite map_map in HX. apply in_map_iff in HX.
    destruct HX as [x [Ex Hx]]. destruct (HO x Hx) as [a [b [-> [D1 [D2 [H0 _]]]]]].
    unfold f in Ex. rewrite split_full_name in Ex by auto. simpl in Ex. inversion Ex; subst. congruence.
Qed.

Lemma from_list_mismatch : forall (l : list gs) s0 l0 s order, l = s0 :: l0 -> In s l ->
  (exists x, In x (gs_names s0) /\ ~ In x (gs_names s) \/ In x (gs_names s) /\ ~ In x (gs_names s0)) ->
  gs_from_list order l = Err ValueError.
Proof.
  intros l s0 l0 s order El Hs [x Hx]. unfold gs_from_list. rewrite El, <- El.
  destruct (forallb (fun s => same_names (gs_names s0) (gs_names s)) l) eqn:E; auto.
  rewrite forallb_forall in E. apply E in Hs. rewrite same_names_iff in Hs.
  specialize (Hs x). tauto.
Qed.

Lemma flat_map_nth : forall B C (l : list B) (f : B -> list C) (g : nat -> option C) n,
  length l = n ->
  (forall i s, nth_error l i = Some s -> exists c, f s = [c] /\ g i = Some c) ->
  length (flat_map f l) = n /\ forall i, i < n -> nth_error (flat_map f l) i = g i.
Proof.
  induction l as [|s l IH]; simpl; intros f g n HN H.
  - subst; split; auto. intros; lia.
  - destruct n as [|n]; [discriminate|]. inversion HN; subst.
    destruct (H 0 s eq_refl) as [c [E1 E2]]. rewrite E1. simpl.
    destruct (IH f (fun i => g (S i)) (length l) eq_refl) as [I1 I2].
    { intros i s' Hs. apply (H (S i) s'). auto. }
    split; [lia|]. intros [|i] Hi; simpl; auto. apply I2. lia.
Qed.

Lemma nth_error_ext : forall B (l1 l2 : list B), length l1 = length l2 ->
  (forall i, i < length l1 -> nth_error l1 i = nth_error l2 i) -> l1 = l2.
Proof.
  induction l1 as [|a l1 IH]; destruct l2 as [|b l2]; simpl; intros HL H; try discriminate; auto.
  f_equal.
  - specialize (H 0 ltac:(lia)). simpl in H. congruence.
  - apply IH; auto. intros i Hi. apply (H (S i)). lia.
Qed.

Lemma split_concat : forall (s : gs), wf s -> 2 <= gs_n s ->
  (forall node var l x, look s node var = Some (Arr l) -> In x l -> exists a, x = Atom a) ->
  exists parts, gs_iterate s = Ok parts /\
    forall order, Permutation order (gs_names s) ->
    exists r, gs_from_list order parts = Ok r /\ wf r /\ gs_n r = gs_n s /\
      forall node var, look r node var = look s node var.
Proof.
  intros s W HN HA. destruct (iterate_spec s W) as [parts [HP [HL HI]]].
  exists parts. split; auto. intros order HO.
  assert (EX : forall t, In t parts -> exists i, i < gs_n s /\ gs_extract s (Z.of_nat i) = Ok t).
  { intros t Ht. apply In_nth_error in Ht. destruct Ht as [i Hi].
    assert (i < gs_n s). { rewrite <- HL. apply nth_error_Some. congruence. }
    exists i. split; auto. destruct (HI i H) as [t' [H1 H2]]. congruence. }
  assert (LK : forall t i node var, gs_extract s (Z.of_nat i) = Ok t -> i < gs_n s ->
     look t node var = match look s node var with
                       | Some (Arr l) => nth_error l i | _ => None end).
  { intros t i node var Ht Hi. apply extract_spec in Ht. destruct Ht as [_ [_ [_ [_ [_ [_ Ht]]]]]].
    rewrite Ht. destruct (look s node var) eqn:E; auto. unfold sample_of.
    destruct (gs_n s =? 1) eqn:E1; [apply Nat.eqb_eq in E1; lia|]. rewrite Nat2Z.id.
    destruct v; auto. }
  assert (AR : forall node var v, look s node var = Some v -> exists l, v = Arr l /\ length l = gs_n s).
  { intros node var v Hv. apply (wf_var _ W) in Hv. destruct Hv as [_ [|]]; auto. lia. }
  assert (NE : forall t, In t parts -> forall node var, look t node var <> None <-> look s node var <> None).
  { intros t Ht node var. destruct (EX t Ht) as [i [Hi Ei]]. rewrite (LK t i) by auto.
    destruct (look s node var) eqn:E; [|tauto]. destruct (AR _ _ _ E) as [l [-> Hl]].
    destruct (nth_error l i) eqn:EN; [split; discriminate|]. apply nth_error_None in EN. lia. }
  assert (WKt : forall t, In t parts -> wk t).
  { intros t Ht. destruct (EX t Ht) as [i [Hi Ei]]. eapply extract_wk; eauto. }
  assert (NM : forall t, In t parts -> forall x, In x (gs_names s) <-> In x (gs_names t)).
  { intros t Ht x. rewrite !In_names by auto. split; intros [node [var [v [Hv ->]]]].
    - assert (look t node var <> None) by (apply NE; auto; congruence).
      destruct (look t node var) eqn:E; [|congruence]. eauto 6.
    - assert (look s node var <> None) by (apply (NE t); auto; congruence).
      destruct (look s node var) eqn:E; [|congruence]. eauto 6. }
  destruct parts as [|p0 ps] eqn:EP; [simpl in HL; lia|]. rewrite <- EP in *.
  assert (I0 : In p0 parts) by (rewrite EP; simpl; auto).
  destruct (from_list_spec parts p0 ps order EP) as [r [R1 [R2 [R3 R4]]]].
  - intros t Ht. destruct (EX t Ht) as [i [Hi Ei]]. split; auto.
    assert (HH := extract_spec _ _ _ Ei). destruct HH as [_ [HN1 _]]. rewrite HN1. split; [lia|].
    intros node var v Hv. rewrite (LK t i) in Hv by auto.
    destruct (look s node var) as [[|l]|] eqn:E; try discriminate.
    destruct (HA node var l v E) as [a ->]; auto. eapply nth_error_In; eauto.
  - intros t Ht x. rewrite <- (NM t Ht x). rewrite <- (NM p0 I0 x). tauto.
  - eapply Permutation_trans; [eauto|]. apply NoDup_Permutation.
    + now apply NoDup_names, wf_wk.
    + apply NoDup_names; auto.
    + apply NM; auto.
  - exists r. split; auto. split; [exact R2|]. split.
    + rewrite R3. rewrite <- HL.
      assert (G : forall l', (forall t, In t l' -> In t parts) -> list_sum (map (fun s => gs_n s) l') = length l').
      { induction l' as [|t l' IH]; simpl; intros Hl; auto. rewrite IH by auto.
        destruct (EX t (Hl t (or_introl eq_refl))) as [i [Hi Ei]].
        assert (HH := extract_spec _ _ _ Ei). destruct HH as [_ [HN1 _]]. rewrite HN1. auto. }
      apply G; auto.
    + intros node var. rewrite R4.
      destruct (look s node var) eqn:E.
      * assert (look p0 node var <> None) by (apply NE; auto; congruence).
        destruct (look p0 node var) eqn:E0; [|congruence]. f_equal.
        destruct (AR _ _ _ E) as [l [-> Hl]]. f_equal.
        destruct (flat_map_nth _ _ parts (fun t => col t node var) (nth_error l) (gs_n s) HL) as [F1 F2].
        { intros i t Ht. assert (Hi : i < gs_n s). { rewrite <- HL. apply nth_error_Some. congruence. }
          destruct (HI i Hi) as [t' [H1 H2]]. assert (t' = t) by congruence. subst t'.
          unfold col. rewrite (LK t i) by auto. rewrite E.
          destruct (nth_error l i) as [x|] eqn:EN; [|apply nth_error_None in EN; lia].
          destruct (HA _ _ _ x E (nth_error_In _ _ EN)) as [a ->].
          exists (Atom a). split; auto. }
        apply nth_error_ext; [lia|]. intros i Hi. apply F2. lia.
      * assert (~ look p0 node var <> None) by (rewrite NE; auto).
        destruct (look p0 node var); auto. exfalso. apply H. discriminate.
Qed.

(** ** extract_parameters *)
Definition holders (es : list (string * string * value)) (p : string) :=
  filter (fun e => String.eqb p (snd (fst e))) es.

Definition at_node (es : list (string * string * value)) (node : string) : option value :=
  match find (fun e => String.eqb node (fst (fst e))) es with Some e => Some (snd e) | None => None end.

Lemma find_app_ : forall B (f : B -> bool) l1 l2,
  find f (l1 ++ l2) = match find f l1 with Some x => Some x | None => find f l2 end.
Proof. induction l1; simpl; intros; auto. destruct (f a); auto. Qed.

Lemma full_name_not_nodot : forall node p q, has_dot q = false -> String.eqb q (full_name node p) = false.
Proof.
  intros. apply String.eqb_neq. intros ->. rewrite full_name_has_dot in H. discriminate.
Qed.

Lemma eqb_full_name : forall a b c d,
  has_dot a = false -> has_dot b = false -> has_dot c = false -> has_dot d = false ->
  String.eqb (full_name a b) (full_name c d) = String.eqb a c && String.eqb b d.
Proof.
  intros. apply eq_true_iff_eq. rewrite eqb2, String.eqb_eq. split.
  - apply full_name_inj; auto.
  - intros [-> ->]; auto.
Qed.

Definition vinv (single : list string) (r0 : dict value) (es : list (string * string * value))
    (acc : dict value * dict string) : Prop :=
  NoDup (dkeys (fst acc)) /\
  (forall p, dget p (snd acc) =
     if smem p single then option_map (fun e => fst (fst e)) (hd_error (holders es p)) else None) /\
  (forall p, has_dot p = false -> dget p (fst acc) =
     match holders es p with [e] => if smem p single then Some (snd e) else None | _ => None end) /\
  (forall node p, has_dot node = false -> has_dot p = false ->
     dget (full_name node p) (fst acc) =
     if smem p single && (2 <=? length (holders es p)) then
       match at_node (holders es p) node with
       | Some v => Some v
       | None => dget (full_name node p) r0
       end
     else dget (full_name node p) r0) /\
  (forall k, In k (dkeys (fst acc)) -> has_dot k = true -> exists node p,
     has_dot node = false /\ has_dot p = false /\ k = full_name node p).

Lemma hd_filter : forall es p (e : string * string * value),
  hd_error (holders es p) = Some e -> In e es /\ snd (fst e) = p.
Proof.
  intros es p e H. assert (HI : In e (holders es p)).
  { destruct (holders es p); inversion H; simpl; auto. }
  apply filter_In in HI. rewrite String.eqb_eq in HI. intuition.
Qed.

Lemma visit_inv : forall (single : list string) (r0 : dict value) es,
  (forall p, In p single -> has_dot p = false) ->
  NoDup (dkeys r0) ->
  (forall k, In k (dkeys r0) -> exists node p, has_dot node = false /\ has_dot p = false /\ k = full_name node p) ->
  (forall e, In e es -> has_dot (fst (fst e)) = false /\ has_dot (snd (fst e)) = false) ->
  NoDup (map fst es) ->
  vinv single r0 es (fold_left (extract_visit single) es (r0, [])).
Proof.
  intros single r0 es HS N0 K0.
  induction es as [|e es IH] using rev_ind; intros HD ND.
  - simpl. unfold vinv; simpl. split; auto. split; [intros; destruct (smem p single); auto|].
    split; [|split].
    + intros p Hp. apply dget_None. intros HI. destruct (K0 p HI) as [a [b [? [? ->]]]].
      rewrite full_name_has_dot in Hp. discriminate.
    + intros. rewrite andb_false_r. auto.
    + intros. auto.
  - rewrite fold_left_app. simpl.
    assert (HD' : forall e, In e es -> has_dot (fst (fst e)) = false /\ has_dot (snd (fst e)) = false).
    { intros. apply HD. apply in_or_app. auto. }
    assert (ND' : NoDup (map fst es) /\ ~ In (fst e) (map fst es)).
    { rewrite map_app in ND. simpl in ND. split.
      - apply NoDup_remove_1 in ND. now rewrite app_nil_r in ND.
      - apply NoDup_remove_2 in ND. now rewrite app_nil_r in ND. }
    destruct ND' as [ND1 ND2]. specialize (IH HD' ND1).
    destruct (HD e) as [DN DP]; [apply in_or_app; simpl; auto|].
    destruct e as [[node param] v]. simpl in DN, DP.
    destruct (fold_left (extract_visit single) es (r0, [])) as [res fs].
    destruct IH as [I1 [I2 [I3 [I4 I5]]]]. simpl in I1, I2, I3, I4, I5.
    assert (HH : forall p, holders (es ++ [(node, param, v)]) p =
              holders es p ++ (if String.eqb p param then [(node, param, v)] else [])).
    { intros. unfold holders. rewrite filter_app. simpl. destruct (String.eqb p param); auto. }
    assert (HNA : forall p, p = param -> at_node (holders es p) node = None).
    { intros p ->. unfold at_node. destruct (find _ (holders es param)) as [[[a b] u]|] eqn:EF; auto.
      apply find_some in EF. destruct EF as [EF1 EF2]. simpl in EF2. apply String.eqb_eq in EF2. subst a.
      apply filter_In in EF1. simpl in EF1. destruct EF1 as [EF1 EF2]. apply String.eqb_eq in EF2. subst b.
      exfalso. apply ND2. simpl. change (node, param) with (fst (node, param, u)). now apply in_map. }
    unfold extract_visit.
    destruct (smem param single) eqn:ES.
    2:{ unfold vinv; simpl. split; auto. split; [|split; [|split]]; auto.
        - intros p. rewrite HH, I2. destruct (smem p single) eqn:E; auto.
          destruct (String.eqb p param) eqn:E2; [|now rewrite app_nil_r].
          apply String.eqb_eq in E2; subst. congruence.
        - intros p Hp. rewrite HH, I3 by auto. destruct (String.eqb p param) eqn:E2; [|now rewrite app_nil_r].
          apply String.eqb_eq in E2; subst. rewrite ES.
          destruct (holders es param) as [|? [|]]; simpl; auto.
        - intros nd p Hn Hp. rewrite HH, I4 by auto.
          destruct (String.eqb p param) eqn:E2; [|now rewrite app_nil_r].
          apply String.eqb_eq in E2; subst. rewrite ES. auto. }
    pose proof (I2 param) as I2p. rewrite ES in I2p.
    destruct (holders es param) as [|e1 hs] eqn:EH; simpl in I2p; rewrite I2p.
    + (* first time *)
      assert (NR : dget param res = None) by (rewrite I3, EH; auto).
      unfold vinv; simpl. split; [now apply NoDup_dset|]. split; [|split; [|split]].
      * intros p. rewrite HH, dget_dset. destruct (String.eqb p param) eqn:E.
        -- apply String.eqb_eq in E; subst. rewrite ES, EH. auto.
        -- rewrite app_nil_r. auto.
      * intros p Hp. rewrite HH, dget_dset. destruct (String.eqb p param) eqn:E.
        -- apply String.eqb_eq in E; subst. rewrite EH, ES. auto.
        -- rewrite app_nil_r. auto.
      * intros nd p Hn Hp. rewrite HH. rewrite dget_dset_other.
        2:{ intros EE. rewrite <- EE in DP. rewrite full_name_has_dot in DP. discriminate. }
        rewrite I4 by auto. destruct (String.eqb p param) eqn:E; [|now rewrite app_nil_r].
        apply String.eqb_eq in E; subst. rewrite EH. simpl. rewrite andb_false_r. auto.
      * intros k Hk Hd. apply In_dkeys_dset in Hk. destruct Hk as [->|Hk]; auto. congruence.
    + destruct e1 as [[n1 p1] v1]. simpl.
      assert (HE1 := hd_filter es param (n1, p1, v1)). rewrite EH in HE1. destruct (HE1 eq_refl) as [HIn Hp1].
      simpl in Hp1. subst p1. destruct (HD' _ HIn) as [DN1 _]. simpl in DN1.
      set (res1 := match dget param res with
                   | Some w => ddel param (dset (full_name n1 param) w res)
                   | None => res end).
      assert (R1 : NoDup (dkeys res1)).
      { unfold res1. destruct (dget param res); auto. now apply NoDup_ddel, NoDup_dset. }
      assert (R2 : forall p, has_dot p = false -> dget p res1 = if String.eqb p param then None else dget p res).
      { intros p Hp. unfold res1. destruct (dget param res) eqn:ER.
        - rewrite dget_ddel by (now apply NoDup_dset). destruct (String.eqb p param) eqn:E; auto.
          rewrite dget_dset. rewrite full_name_not_nodot by auto. auto.
        - destruct (String.eqb p param) eqn:E; auto. apply String.eqb_eq in E; subst; auto. }
      assert (R3 : forall nd p, has_dot nd = false -> has_dot p = false ->
         dget (full_name nd p) res1 =
         match hs with [] => if String.eqb nd n1 && String.eqb p param then Some v1 else dget (full_name nd p) res
                     | _ => dget (full_name nd p) res end).
      { intros nd p Hn Hp. unfold res1. rewrite I3, EH, ES by auto. destruct hs; auto. simpl snd.
        rewrite dget_ddel by (now apply NoDup_dset).
        rewrite String.eqb_sym, full_name_not_nodot by auto.
        rewrite dget_dset, eqb_full_name by auto. auto. }
      assert (R5 : forall k, In k (dkeys res1) -> has_dot k = true -> exists nd p,
         has_dot nd = false /\ has_dot p = false /\ k = full_name nd p).
      { intros k Hk Hd. unfold res1 in Hk. destruct (dget param res); auto.
        apply dkeys_ddel_In in Hk; [|now apply NoDup_dset]. destruct Hk as [_ Hk].
        apply In_dkeys_dset in Hk. destruct Hk as [->|Hk]; auto. exists n1, param. auto. }
      unfold vinv; simpl. split; [now apply NoDup_dset|]. split; [|split; [|split]].
      * intros p. rewrite HH, I2. destruct (String.eqb p param) eqn:E; [|now rewrite app_nil_r].
        apply String.eqb_eq in E; subst. rewrite ES, EH. auto.
      * intros p Hp. rewrite HH, dget_dset, full_name_not_nodot, R2 by auto.
        destruct (String.eqb p param) eqn:E; [|rewrite app_nil_r; auto].
        apply String.eqb_eq in E; subst. rewrite EH. simpl. destruct hs; auto.
      * intros nd p Hn Hp. rewrite HH, dget_dset, eqb_full_name, R3 by auto.
        destruct (String.eqb p param) eqn:E.
        2:{ rewrite !andb_false_r, app_nil_r. rewrite I4 by auto. destruct hs; auto. }
        apply String.eqb_eq in E; subst p. rewrite !andb_true_r, ES, EH. simpl andb.
        rewrite app_length, Nat.add_comm. cbn [length Nat.add Nat.leb andb].
        unfold at_node. rewrite find_app_.
        destruct (String.eqb nd node) eqn:EN.
        -- apply String.eqb_eq in EN; subst nd. specialize (HNA param eq_refl). rewrite EH in HNA.
           unfold at_node in HNA. destruct (find _ (_ :: hs)); [discriminate|]. simpl.
           now rewrite eqb_refl.
        -- simpl find at 2. rewrite EN.
           rewrite I4, EH, ES by auto. unfold at_node. simpl find.
           destruct hs as [|h2 hs]; simpl.
           ++ destruct (String.eqb nd n1); auto.
           ++ destruct (String.eqb nd n1); auto.
              destruct (if String.eqb nd (fst (fst h2)) then Some h2 else _); auto.
      * intros k Hk Hd. apply In_dkeys_dset in Hk. destruct Hk as [->|Hk]; auto. exists node, param; auto.
Qed.

End P.
