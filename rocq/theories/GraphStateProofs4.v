(** Bridge lemmas used by the property file, and soundness of [==]. *)
From Coq Require Import String Ascii List Bool Arith ZArith QArith Lia Permutation.
From Verif Require Import Base BaseFacts GraphStateModel GraphStateProofs GraphStateProofs2 GraphStateProofs3.
Import ListNotations.
Open Scope string_scope.
Open Scope list_scope.
Open Scope nat_scope.

Section P.
Context {A : Type}.
Notation gs := (gs A).
Notation value := (value A).
Hint Resolve wf_wk : core.

Lemma reads_look : forall (s : gs) node var v, wk s ->
  (gs_getitem s (full_name node var) = Ok (IVal v) <-> look s node var = Some v).
Proof.
  intros s node var v W. rewrite getitem_full_iff by auto. split; [tauto|].
  intros H. destruct (look_nodot _ _ _ _ W H). auto.
Qed.

Lemma fixed_iff : forall (s : gs) node var,
  (exists l, dget node (gs_fixed s) = Some l /\ In var l) <-> is_fixed s node var = true.
Proof.
  intros. unfold is_fixed. split.
  - intros [l [-> H]]. now apply smem_In.
  - destruct (dget node (gs_fixed s)) as [l|]; [|discriminate]. intros H. apply smem_In in H. eauto.
Qed.

Lemma store_value_cases : forall n (v w : value), 1 <= n ->
  (store_value n v = Ok w <->
   (n = 1 /\ w = v) \/
   (n <> 1 /\ ((exists a, v = Atom a /\ w = Arr (repeat (Atom a) n)) \/
               (exists l, v = Arr l /\ length l = n /\ w = v)))).
Proof.
  intros n v w HN. unfold store_value. destruct (n =? 1) eqn:E.
  - apply Nat.eqb_eq in E. split; [intros H; inversion H; auto|].
    intros [[_ ->]|[H _]]; [auto|congruence].
  - apply Nat.eqb_neq in E. split.
    + intros H. right. split; auto. destruct v as [a|l].
      * inversion H; eauto.
      * destruct (length l =? n) eqn:E2; inversion H; subst. apply Nat.eqb_eq in E2. right; eauto.
    + intros [[H _]|[_ [[a [-> ->]]|[l [-> [HL ->]]]]]]; [congruence|auto|].
      apply Nat.eqb_eq in HL. now rewrite HL.
Qed.

Lemma store_value_fails : forall n (v : value), 1 <= n ->
  (exists e, store_value n v = Err e) <-> (n <> 1 /\ exists l, v = Arr l /\ length l <> n).
Proof.
  intros n v HN. unfold store_value. destruct (n =? 1) eqn:E.
  - apply Nat.eqb_eq in E. split; [intros [e H]; discriminate|]. intros [H _]; congruence.
  - apply Nat.eqb_neq in E. split.
    + intros [e H]. split; auto. destruct v as [a|l]; [discriminate|].
      destruct (length l =? n) eqn:E2; [discriminate|]. apply Nat.eqb_neq in E2. eauto.
    + intros [_ [l [-> HL]]]. apply Nat.eqb_neq in HL. rewrite HL. eauto.
Qed.
End P.

(** ** [==]. *)
Lemma eq_params_sound : forall d1 d2, eq_params d1 d2 = Ok true ->
  forall k v, In (k, v) d1 -> exists w, dget k d2 = Some w /\ allclose v w = Ok true.
Proof.
  induction d1 as [|[k v] d1 IH]; simpl; intros d2 H k0 v0 HI; [tauto|].
  destruct (dget k d2) as [w|] eqn:E; [|discriminate].
  destruct (allclose v w) as [[|]|] eqn:E2; try discriminate.
  destruct HI as [HI|HI].
  - inversion HI; subst; eauto.
  - eauto.
Qed.

Lemma eq_states_sound : forall st1 st2, eq_states st1 st2 = Ok true ->
  forall k d1, In (k, d1) st1 -> exists d2, dget k st2 = Some d2 /\ length d1 = length d2 /\
    forall p v, In (p, v) d1 -> exists w, dget p d2 = Some w /\ allclose v w = Ok true.
Proof.
  induction st1 as [|[k d] st1 IH]; simpl; intros st2 H k0 d0 HI; [tauto|].
  destruct (dget k st2) as [d2|] eqn:E; [|discriminate].
  destruct (negb (length d =? length d2)) eqn:EL; [discriminate|].
  apply negb_false_iff, Nat.eqb_eq in EL.
  destruct (eq_params d d2) as [[|]|] eqn:E2; try discriminate.
  destruct HI as [HI|HI].
  - inversion HI; subst. exists d2. split; auto. split; auto. now apply eq_params_sound.
  - eauto.
Qed.

(** A duplicate-free list of keys included in another of the same length is the whole of it. *)
Lemma keys_all : forall V (d1 d2 : dict V), NoDup (dkeys d1) -> length d1 = length d2 ->
  (forall k, In k (dkeys d1) -> In k (dkeys d2)) -> forall k, In k (dkeys d2) -> In k (dkeys d1).
Proof.
  intros V d1 d2 ND HL HI k HK.
  assert (incl (dkeys d2) (dkeys d1)); [|auto].
  apply NoDup_length_incl; auto. unfold dkeys. rewrite !map_length. lia.
Qed.

Definition dkeys_same {V W} (d1 : dict V) (d2 : dict W) := forall k, In k (dkeys d1) <-> In k (dkeys d2).
Lemma gs_eq_sound : forall s t : gs Q, wk s -> wk t -> gs_eq s t = Ok true ->
  gs_n s = gs_n t /\ fixed_eq (gs_fixed s) (gs_fixed t) = true /\
  dkeys_same (gs_states s) (gs_states t) /\
  (forall node var v, look s node var = Some v ->
     exists w, look t node var = Some w /\ allclose v w = Ok true) /\
  (forall node var w, look t node var = Some w -> exists v, look s node var = Some v).
Proof.
  intros s t Ws Wt H. unfold gs_eq in H.
  destruct (negb (gs_n s =? gs_n t)) eqn:E1; [discriminate|].
  apply negb_false_iff, Nat.eqb_eq in E1.
  destruct (negb (length (gs_states s) =? length (gs_states t))) eqn:E2; [discriminate|].
  apply negb_false_iff, Nat.eqb_eq in E2.
  destruct (eq_states (gs_states s) (gs_states t)) as [[|]|] eqn:E3; try discriminate.
  assert (E4 : fixed_eq (gs_fixed s) (gs_fixed t) = true) by (inversion H; auto).
  assert (S := eq_states_sound _ _ E3).
  assert (K1 : forall k, In k (dkeys (gs_states s)) -> In k (dkeys (gs_states t))).
  { intros k HK. unfold dkeys in HK. apply in_map_iff in HK. destruct HK as [[k' d] [<- HK]].
    destruct (S _ _ HK) as [d2 [G _]]. simpl. apply dget_In in G. unfold dkeys. apply in_map_iff.
    exists (k', d2); auto. }
  assert (K2 := keys_all _ _ _ (wk_nodup _ Ws) E2 K1).
  split; auto. split; auto. split; [split; auto|]. split.
  - intros node var v HL. unfold look in HL.
    destruct (dget node (gs_states s)) as [d|] eqn:ED; [|discriminate].
    destruct (S _ _ (dget_In _ _ _ _ ED)) as [d2 [G1 [G2 G3]]].
    destruct (G3 _ _ (dget_In _ _ _ _ HL)) as [w [G4 G5]]. exists w. unfold look. rewrite G1. auto.
  - intros node var w HL. unfold look in HL.
    destruct (dget node (gs_states t)) as [d2|] eqn:ED; [|discriminate].
    assert (HK : In node (dkeys (gs_states s))).
    { apply K2. unfold dkeys. apply in_map_iff. exists (node, d2). split; auto. eapply dget_In; eauto. }
    destruct (dget node (gs_states s)) as [d|] eqn:ED1.
    2:{ apply dget_None in ED1. tauto. }
    destruct (S _ _ (dget_In _ _ _ _ ED1)) as [d2' [G1 [G2 G3]]].
    assert (d2' = d2) by congruence. subst d2'.
    assert (HV : In var (dkeys d)).
    { apply (keys_all _ d d2).
      - destruct (wk_node _ Ws _ _ ED1); auto.
      - exact G2.
      - intros k Hk. unfold dkeys in Hk. apply in_map_iff in Hk. destruct Hk as [[k' v'] [<- Hk]].
        destruct (G3 _ _ Hk) as [w' [Q1 _]]. unfold dkeys. apply in_map_iff. exists (k', w'). split; auto.
        eapply dget_In; eauto.
      - unfold dkeys. apply in_map_iff. exists (var, w). split; auto. eapply dget_In; eauto. }
    unfold look. rewrite ED1. destruct (dget var d) as [v|] eqn:EV; eauto.
    apply dget_None in EV. tauto.
Qed.

Lemma fixed_eq_sound : forall f1 f2, NoDup (dkeys f1) -> fixed_eq f1 f2 = true ->
  dkeys_same f1 f2 /\
  forall k l1, dget k f1 = Some l1 -> exists l2, dget k f2 = Some l2 /\ forall x, In x l1 <-> In x l2.
Proof.
  intros f1 f2 ND H. unfold fixed_eq in H. apply andb_true_iff in H. destruct H as [H1 H2].
  apply Nat.eqb_eq in H1. rewrite forallb_forall in H2.
  assert (G : forall k l1, In (k, l1) f1 -> exists l2, dget k f2 = Some l2 /\ forall x, In x l1 <-> In x l2).
  { intros k l1 HI. specialize (H2 _ HI). simpl in H2. destruct (dget k f2) as [l2|]; [|discriminate].
    exists l2. split; auto. now apply same_names_iff. }
  split.
  - assert (K1 : forall k, In k (dkeys f1) -> In k (dkeys f2)).
    { intros k HK. unfold dkeys in HK. apply in_map_iff in HK. destruct HK as [[k' l] [<- HK]].
      destruct (G _ _ HK) as [l2 [Q _]]. simpl. apply dget_In in Q. unfold dkeys. apply in_map_iff.
      exists (k', l2); auto. }
    intros k; split; auto. now apply keys_all.
  - intros k l1 Hk. apply G. now apply dget_In.
Qed.
