(** C05 and C07 continued: [get_node_state] and dictionaries given to [from_dict]. *)
From Coq Require Import String Ascii List Bool Arith ZArith Lia.
From Verif Require Import Base BaseFacts GraphStateModel GraphStateProofs GraphStateProofs2
  GraphStateProofs3 GraphStateProofs4 GraphStateProps.
Import ListNotations.
Open Scope string_scope.
Open Scope list_scope.
Open Scope nat_scope.

#[local] Hint Resolve wf_wk reachable_wf : core.

Lemma NoDup_app_intro : forall B (a b : list B), NoDup a -> NoDup b ->
  (forall x, In x a -> ~ In x b) -> NoDup (a ++ b).
Proof.
  induction a as [|x a IH]; simpl; intros b HA HB H; auto. inversion HA; subst.
  constructor; auto. rewrite in_app_iff. intros [X|X]; [tauto|]. apply (H x); auto.
Qed.

(** ** C05: one sample of one node *)
Theorem C05_node_state : forall A (s : gs A) (node : string) (i : Z), reachable s ->
  ((exists d, gs_get_node_state s node i = Ok d) <->
     (exists d, gs_getitem s node = Ok (INode d)) /\ (0 <= i < Z.of_nat (gs_n s))%Z) /\
  (forall d, gs_get_node_state s node i = Ok d ->
     forall var x, dget var d = Some x <->
       exists v, reads s node var v /\ sample_value (gs_n s) v (Z.to_nat i) x).
Proof.
  intros A s node i R. assert (W := reachable_wf _ R).
  assert (KN : (exists d, gs_getitem s node = Ok (INode d)) <-> exists d, dget node (gs_states s) = Some d).
  { unfold gs_getitem. destruct (dget node (gs_states s)) as [d|] eqn:E; [split; eauto|].
    split; [|intros [d H]; discriminate]. intros [d H].
    destruct (has_dot node).
    - destruct (split_dot node) as [|a [|b [|]]]; try discriminate.
      destruct (dget a (gs_states s)); try discriminate. destruct (dget b d0); discriminate.
    - destruct (gs_states s) as [|[k d0] [|]]; try discriminate. destruct (dget node d0); discriminate. }
  rewrite KN. clear KN.
  assert (SH : forall d var v, dget node (gs_states s) = Some d -> dget var d = Some v ->
            look s node var = Some v) by (intros d var v H1 H2; unfold look; now rewrite H1).
  unfold gs_get_node_state. split.
  - split.
    + intros [d H]. destruct (dget node (gs_states s)) as [d0|]; [|discriminate]. split; [eauto|].
      destruct ((i <? 0)%Z) eqn:E1; [discriminate|]. apply Z.ltb_ge in E1.
      destruct ((Z.of_nat (gs_n s) <=? i)%Z) eqn:E2; [discriminate|]. apply Z.leb_gt in E2. lia.
    + intros [[d H] HI]. rewrite H.
      destruct ((i <? 0)%Z) eqn:E1; [apply Z.ltb_lt in E1; lia|].
      destruct ((Z.of_nat (gs_n s) <=? i)%Z) eqn:E2; [apply Z.leb_le in E2; lia|]. simpl.
      destruct (gs_n s =? 1) eqn:E; [eauto|]. apply Nat.eqb_neq in E.
      apply dmap_res_total.
      * apply (wk_node _ (wf_wk _ W) _ _ H).
      * intros k v Hk. specialize (SH _ _ _ H Hk). apply (wf_var _ W) in SH.
        destruct SH as [_ [SH|[l [-> SH]]]]; [contradiction|]. unfold value_at.
        destruct (nth_error l (Z.to_nat i)) as [x|] eqn:EN; [eauto|]. apply nth_error_None in EN. lia.
  - intros d H var x. destruct (dget node (gs_states s)) as [d0|] eqn:EN; [|discriminate].
    destruct ((i <? 0)%Z || (Z.of_nat (gs_n s) <=? i)%Z); [discriminate|].
    unfold sample_value, reads.
    destruct (gs_n s =? 1) eqn:E.
    + apply Nat.eqb_eq in E. inversion H; subst. split.
      * intros HX. exists x. split; [apply reads_look; auto; eapply SH; eauto|auto].
      * intros [v [HV [[_ ->]|[HN _]]]]; [|congruence]. apply reads_look in HV; auto.
        unfold look in HV. now rewrite EN in HV.
    + apply Nat.eqb_neq in E. apply dmap_res_ok in H. destruct H as [_ H]. specialize (H var). split.
      * intros HX. destruct (dget var d0) as [v|] eqn:EV; [|congruence].
        destruct H as [w [H1 H2]]. exists v. split; [apply reads_look; auto; eapply SH; eauto|].
        right. split; auto. rewrite HX in H2. inversion H2; subst. unfold value_at in H1.
        destruct v as [a|l]; [discriminate|]. exists l. split; auto.
        destruct (nth_error l (Z.to_nat i)); congruence.
      * intros [v [HV [[HN _]|[_ [l [-> HL]]]]]]; [congruence|]. apply reads_look in HV; auto.
        unfold look in HV. rewrite EN in HV. rewrite HV in H. destruct H as [w [H1 H2]].
        unfold value_at in H1. rewrite HL in H1. congruence.
Qed.
Example C05_node_applies : exists d, gs_get_node_state ex_state "b" 1 = Ok d /\ dget "x" d = Some (Atom 8%Z).
Proof. eexists. split; reflexivity. Qed.
Print Assumptions C05_node_state.

(** ** C07: what a dictionary given to [from_dict] says *)
(** The dictionary gives the value [v] to parameter [var] of [node]: under the key "node.var",
    or as [data[node][var]]. *)
Definition given {A} (data : dict (dentry A)) (node var : string) (v : value A) : Prop :=
  (exists d, In (node, DNested d) data /\ In (var, v) d) \/ In (full_name node var, DVal v) data.
(** Dictionaries have no repeated keys, and no parameter is given twice. *)
Definition proper_dict {A} (data : dict (dentry A)) : Prop :=
  NoDup (dkeys data) /\
  (forall node d, In (node, DNested d) data -> NoDup (dkeys d)) /\
  (forall node var v d, In (node, DNested d) data -> In var (dkeys d) ->
     ~ In (full_name node var, DVal v) data).
(** Flattened keys are "node.param"; the keys of nested dictionaries contain no dot; no value is a
    sequence of the wrong length. *)
Definition well_keyed {A} (n : nat) (data : dict (dentry A)) : Prop :=
  forall k e, In (k, e) data ->
    match e with
    | DVal v => (exists node var, has_dot node = false /\ has_dot var = false /\ k = full_name node var) /\
                ~ wrong_length n v
    | DNested d => has_dot k = false /\
                   forall var v, In (var, v) d -> has_dot var = false /\ ~ wrong_length n v
    end.

Section FromDict.
Variable A : Type.
Notation gs := (gs A). Notation value := (value A). Notation dentry := (dentry A).

(** The calls of [set] made for one entry. *)
Definition step_sets (kv : string * dentry) : option (list (string * string * value)) :=
  if has_dot (fst kv) then
    match split_dot (fst kv), snd kv with
    | [node; param], DVal v => Some [(node, param, v)]
    | _, _ => None
    end
  else match snd kv with
       | DNested d => Some (map (fun pv => (fst kv, fst pv, snd pv)) d)
       | DVal _ => None
       end.
Fixpoint all_sets (data : list (string * dentry)) : option (list (string * string * value)) :=
  match data with
  | [] => Some []
  | kv :: data' => match step_sets kv, all_sets data' with
                   | Some a, Some b => Some (a ++ b) | _, _ => None end
  end.

Lemma set_all_app : forall l1 l2 (s : gs) fx,
  gs_set_all s (l1 ++ l2) fx =
  match gs_set_all s l1 fx with (s', None) => gs_set_all s' l2 fx | r => r end.
Proof.
  induction l1 as [|[[a b] v] l1 IH]; simpl; intros; auto.
  destruct (gs_set s a b v fx) as [s' [e|]]; auto.
Qed.

Lemma step_sets_ok : forall s kv, from_dict_step s kv =
  match step_sets kv with
  | Some l => match gs_set_all s l false with (s', None) => Ok s' | (_, Some e) => Err e end
  | None => Err ValueError
  end.
Proof.
  intros s [k e]. unfold from_dict_step, step_sets. simpl.
  destruct (has_dot k).
  - destruct (split_dot k) as [|a [|b [|]]]; auto. destruct e; auto. simpl.
    destruct (gs_set s a b v false) as [s' [e|]]; auto.
  - destruct e; auto.
Qed.

Lemma from_dict_sets : forall data s r,
  fold_res (@from_dict_step A) s data = Ok r <->
  exists l, all_sets data = Some l /\ gs_set_all s l false = (r, None).
Proof.
  induction data as [|kv data IH]; intros s r; cbn [fold_res all_sets].
  - split; [intros H; inversion H; subst; exists []; auto|]. intros [l [E H]]. inversion E; subst.
    simpl in H. congruence.
  - rewrite step_sets_ok. destruct (step_sets kv) as [a|].
    2:{ split; [discriminate|]. intros [l [E _]]; discriminate. }
    destruct (gs_set_all s a false) as [s' [e|]] eqn:ES.
    + split; [discriminate|]. intros [l [E H]]. destruct (all_sets data); [|discriminate].
      inversion E; subst. rewrite set_all_app, ES in H. discriminate.
    + rewrite IH. split; intros [l [E H]].
      * exists (a ++ l). rewrite E. split; auto. now rewrite set_all_app, ES.
      * destruct (all_sets data) as [b|]; [|discriminate]. inversion E; subst.
        rewrite set_all_app, ES in H. eauto.
Qed.

Lemma full_name_nodot : forall node var a b, has_dot a = false -> has_dot b = false ->
  full_name node var = full_name a b -> node = a /\ var = b.
Proof.
  unfold full_name. induction node as [|c node IH]; intros var a b HA HB H; destruct a as [|c' a]; simpl in *.
  - inversion H. auto.
  - inversion H; subst. destruct (Ascii.eqb dot dot) eqn:E; [discriminate|].
    rewrite Ascii.eqb_refl in E. discriminate.
  - inversion H; subst. exfalso. assert (X : has_dot (node ++ String dot var) = true) by apply full_name_has_dot.
    congruence.
  - inversion H; subst. destruct (Ascii.eqb c' dot) eqn:E; [discriminate|].
    destruct (IH var a b) as [-> ->]; auto.
Qed.

Lemma all_sets_given : forall data l, all_sets data = Some l ->
  forall node var v, In (node, var, v) l <-> given data node var v.
Proof.
  induction data as [|[k e] data IH]; cbn [all_sets]; intros l H node var v.
  - inversion H; subst. unfold given. simpl. split; [tauto|]. intros [[d [[] _]]|[]].
  - destruct (step_sets (k, e)) as [a|] eqn:ES; [|discriminate].
    destruct (all_sets data) as [b|]; [|discriminate]. inversion H; subst.
    rewrite in_app_iff, (IH b eq_refl). clear IH H.
    assert (X : In (node, var, v) a <->
              (exists d, (k, e) = (node, DNested d) /\ In (var, v) d) \/ (k, e) = (full_name node var, DVal v)).
    { unfold step_sets in ES. simpl in ES. destruct (has_dot k) eqn:ED.
      - destruct (split_dot k) as [|p [|q [|]]] eqn:EK; try discriminate. destruct e; [|discriminate].
        inversion ES; subst. destruct (split_dot_two _ _ _ EK) as (-> & D1 & D2). simpl. split.
        + intros [X|[]]. inversion X; subst. right. reflexivity.
        + intros [[d [X _]]|X]; inversion X; subst.
          destruct (full_name_nodot node var p q) as [-> ->]; auto.
      - destruct e; [discriminate|]. inversion ES; subst. rewrite in_map_iff. split.
        + intros [[p q] [X Y]]. simpl in X. inversion X; subst. left. eauto.
        + intros [[d0 [X Y]]|X]; inversion X; subst. exists (var, v). auto. }
    rewrite X. unfold given. simpl. split.
    + intros [[[d [Y1 Y2]]|Y]|[[d [Y1 Y2]]|Y]]; eauto.
    + intros [[d [[Y1|Y1] Y2]]|[Y|Y]]; eauto.
Qed.

Lemma all_sets_nodup : forall data l, all_sets data = Some l -> proper_dict data -> NoDup (map fst l).
Proof.
  induction data as [|[k e] data IH]; cbn [all_sets]; intros l H (P1 & P2 & P3).
  - inversion H; subst. constructor.
  - destruct (step_sets (k, e)) as [a|] eqn:ES; [|discriminate].
    destruct (all_sets data) as [b|] eqn:EB; [|discriminate]. inversion H; subst.
    simpl in P1. inversion P1 as [|? ? PN PD]; subst.
    assert (NB : NoDup (map fst b)).
    { apply IH; auto. split; auto. split.
      - intros. eapply P2; right; eauto.
      - intros node var v d H1 H2 H3. eapply (P3 node var v d); eauto; right; auto. }
    rewrite map_app. apply NoDup_app_intro; auto.
    + unfold step_sets in ES. simpl in ES. destruct (has_dot k) eqn:ED.
      * destruct (split_dot k) as [|p [|q [|]]] eqn:EK; try discriminate. destruct e; [|discriminate].
        inversion ES; subst. simpl. constructor; [intros []|constructor].
      * destruct e; [discriminate|]. inversion ES; subst. rewrite map_map. simpl.
        assert (ND : NoDup (dkeys d)) by (eapply P2; left; reflexivity).
        revert ND. unfold dkeys. clear. induction d as [|[p q] d IH]; simpl; intros ND; [constructor|].
        inversion ND; subst. constructor; auto. intros HX. apply in_map_iff in HX.
        destruct HX as [[p' q'] [E HX]]. simpl in E. inversion E; subst. apply H1.
        apply in_map_iff. exists (p, q'); auto.
    + intros [node var] HA HB. apply in_map_iff in HA. destruct HA as [[[n1 v1] w1] [E1 HA]].
      apply in_map_iff in HB. destruct HB as [[[n2 v2] w2] [E2 HB]]. simpl in E1, E2.
      inversion E1; inversion E2; subst.
      apply (all_sets_given _ _ EB) in HB.
      unfold step_sets in ES. simpl in ES. destruct (has_dot k) eqn:ED.
      * destruct (split_dot k) as [|p [|q [|]]] eqn:EK; try discriminate. destruct e; [|discriminate].
        inversion ES; subst. destruct (split_dot_two _ _ _ EK) as (-> & D1 & D2).
        destruct HA as [HA|[]]. inversion HA; subst. destruct HB as [[d [Y1 Y2]]|Y].
        -- eapply (P3 node var w1 d); [right; eauto| |left; reflexivity].
           unfold dkeys. apply in_map_iff. exists (var, w2); auto.
        -- apply PN. apply in_map_iff. eexists; split; [|exact Y]. reflexivity.
      * destruct e; [discriminate|]. inversion ES; subst. apply in_map_iff in HA.
        destruct HA as [[p q] [X Y]]. simpl in X. inversion X; subst.
        destruct HB as [[d0 [Y1 Y2]]|Z].
        -- apply PN. apply in_map_iff. eexists; split; [|exact Y1]. reflexivity.
        -- eapply (P3 node var w2 d); [left; reflexivity| |right; exact Z].
           unfold dkeys. apply in_map_iff. exists (var, w1); auto.
Qed.

Lemma all_sets_total : forall data,
  (forall k e, In (k, e) data -> match e with
     | DVal v => exists node var, has_dot node = false /\ has_dot var = false /\ k = full_name node var
     | DNested d => has_dot k = false end) <-> exists l, all_sets data = Some l.
Proof.
  induction data as [|[k e] data IH]; cbn [all_sets].
  - split; [eauto|]. intros _ k e [].
  - split.
    + intros H. destruct (proj1 IH) as [b Hb]; [intros; apply (H k0 e0); now right|]. rewrite Hb.
      assert (HE := H k e (or_introl eq_refl)). unfold step_sets. simpl. destruct e.
      * destruct HE as (p & q & D1 & D2 & ->). rewrite full_name_has_dot, split_full_name by auto. eauto.
      * rewrite HE. eauto.
    + intros [l H]. destruct (step_sets (k, e)) as [a|] eqn:ES; [|discriminate].
      destruct (all_sets data) as [b|] eqn:EB; [|discriminate]. intros k0 e0 [HX|HX].
      2:{ apply (proj2 IH); eauto. }
      inversion HX; subst. unfold step_sets in ES. simpl in ES. destruct (has_dot k0) eqn:ED.
      * destruct (split_dot k0) as [|p [|q [|]]] eqn:EK; try discriminate. destruct e0; [|discriminate].
        destruct (split_dot_two _ _ _ EK) as (-> & D1 & D2). eauto.
      * destruct e0; [discriminate|]. auto.
Qed.
End FromDict.

Theorem C07_from_dict : forall A (data : dict (dentry A)) (n : Z), proper_dict data ->
  ((exists r, gs_from_dict data n = Ok r) <-> (1 <= n)%Z /\ well_keyed (Z.to_nat n) data) /\
  (forall r, gs_from_dict data n = Ok r ->
     gs_n r = Z.to_nat n /\
     forall node var w, reads r node var w <->
       exists v, given data node var v /\ expands (Z.to_nat n) v w).
Proof.
  intros A data n P. unfold gs_from_dict, gs_new. destruct (n <? 1)%Z eqn:E1.
  { apply Z.ltb_lt in E1. simpl. split; [|discriminate]. split; [intros [r H]; discriminate|lia]. }
  apply Z.ltb_ge in E1. cbn [bind]. assert (HN : 1 <= Z.to_nat n) by lia.
  assert (WF := @wf_fresh A _ HN). split.
  - split.
    + intros [r H]. split; [lia|]. apply from_dict_sets in H. destruct H as [l [HA H]].
      assert (ND := all_sets_nodup _ _ _ HA P).
      destruct (set_all_spec _ _ _ _ WF H ND) as (_ & _ & HD & _ & _ & HS).
      assert (T := proj2 (all_sets_total _ data) (ex_intro _ _ HA)).
      assert (G : forall node var v, given data node var v ->
                has_dot node = false /\ has_dot var = false /\ ~ wrong_length (Z.to_nat n) v).
      { intros node var v HG. apply (all_sets_given _ _ _ HA) in HG.
        destruct (HD _ HG). destruct (HS _ HG) as [X|[w X]]; [discriminate X|].
        simpl in *. split; auto. split; auto. intros X2. apply store_value_fails in X2; auto.
        destruct X2 as [e X2]. rewrite X in X2. discriminate. }
      intros k e HI. assert (TE := T _ _ HI). destruct e.
      * split; auto. destruct TE as (p & q & _ & _ & ->). apply (G p q). now right.
      * split; auto. intros var v HV. apply (G k var v). left. eauto.
    + intros [_ WK]. destruct (proj1 (all_sets_total _ data)) as [l HA].
      { intros k e HI. assert (WE := WK _ _ HI). destruct e; tauto. }
      destruct (set_all_ok l (gs_fresh (Z.to_nat n)) false WF) as [r Hr].
      * intros [[node var] v] HI. simpl. apply (all_sets_given _ _ _ HA) in HI.
        assert (Q : has_dot node = false /\ has_dot var = false /\ ~ wrong_length (Z.to_nat n) v).
        { destruct HI as [[d [H1 H2]]|H1]; specialize (WK _ _ H1); simpl in WK.
          - destruct WK as [W1 W2]. destruct (W2 _ _ H2). auto.
          - destruct WK as [(p & q & D1 & D2 & W1) W2]. apply full_name_nodot in W1; auto.
            destruct W1; subst; auto. }
        destruct Q as (Q1 & Q2 & Q3). split; auto. split; auto.
        destruct (store_value (Z.to_nat n) v) as [w|e] eqn:ES; eauto.
        exfalso. apply Q3. apply store_value_fails; eauto.
      * exists r. apply from_dict_sets. eauto.
  - intros r H. apply from_dict_sets in H. destruct H as [l [HA H]].
    assert (ND := all_sets_nodup _ _ _ HA P).
    destruct (set_all_spec _ _ _ _ WF H ND) as (W' & HGN & HD & HL & _ & HS).
    split; auto. intros node var w. unfold reads. rewrite reads_look by auto. rewrite HL, fresh_look, fresh_fixed.
    simpl gs_n. split.
    + destruct (find _ l) as [[[a b] v]|] eqn:EF; [|discriminate]. apply find_some in EF.
      destruct EF as [EF1 EF2]. simpl in EF2. apply eqb2 in EF2. destruct EF2; subst.
      simpl. destruct (store_value (Z.to_nat n) v) as [u|] eqn:ES; [|discriminate]. intros X; inversion X; subst.
      exists v. split; [now apply (all_sets_given _ _ _ HA)|]. now apply store_value_cases in ES.
    + intros [v [HG HE]]. apply (all_sets_given _ _ _ HA) in HG. rewrite (find_key _ _ _ _ ND HG).
      simpl. apply store_value_cases in HE; auto. now rewrite HE.
Qed.
Example C07_from_dict_applies :
  let data := [("a", DNested [("x", Atom 1%Z); ("y", Arr [Atom 3; Atom 4]%Z)]); ("b.x", DVal (Atom 2%Z))] in
  proper_dict data /\ well_keyed 2 data /\
  exists r, gs_from_dict data 2 = Ok r /\ reads r "a" "x" (Arr [Atom 1; Atom 1]%Z) /\
            reads r "b" "x" (Arr [Atom 2; Atom 2]%Z).
Proof.
  split; [|split].
  - split; [repeat constructor; simpl; intuition congruence|]. split.
    + intros node d [H|[H|[]]]; inversion H; subst. repeat constructor; simpl; intuition congruence.
    + intros node var v d [H|[H|[]]]; inversion H; subst. simpl. intros HV [X|[X|[]]]; inversion X.
  - intros k e [H|[H|[]]]; inversion H; subst.
    + split; auto. intros var v [X|[X|[]]]; inversion X; subst; split; auto.
      * intros [_ [l [Q _]]]; discriminate.
      * intros [_ [l [Q1 Q2]]]. inversion Q1; subst. now apply Q2.
    + split; [exists "b", "x"; auto|]. intros [_ [l [Q _]]]; discriminate.
  - eexists. split; [reflexivity|]. split; reflexivity.
Qed.
Print Assumptions C07_from_dict.
