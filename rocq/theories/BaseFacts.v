(** Facts about the vocabulary of [Base]. *)
From Coq Require Import String Ascii List Bool Arith Lia ZArith.
From Verif Require Import Base.
Import ListNotations.
Open Scope string_scope.
Open Scope list_scope.

Lemma eqb_refl : forall k, String.eqb k k = true.
Proof. exact String.eqb_refl. Qed.

Lemma dget_In : forall V k (v : V) d, dget k d = Some v -> In (k, v) d.
Proof.
  induction d as [|[k' v'] d IH]; simpl; [discriminate|].
  destruct (String.eqb k k') eqn:E; intros H.
  - apply String.eqb_eq in E. inversion H; subst. auto.
  - right; auto.
Qed.

Lemma dget_keys : forall V k (d : dict V), dget k d <> None <-> In k (dkeys d).
Proof.
  induction d as [|[k' v'] d IH]; simpl.
  - split; [congruence | tauto].
  - destruct (String.eqb k k') eqn:E.
    + apply String.eqb_eq in E; subst. split; auto; discriminate.
    + apply String.eqb_neq in E. rewrite IH. unfold dkeys. split; auto. intros [H|H]; congruence.
Qed.

Lemma dget_None : forall V k (d : dict V), dget k d = None <-> ~ In k (dkeys d).
Proof.
  intros. rewrite <- dget_keys. destruct (dget k d); split; intros H; try congruence; auto.
  exfalso; apply H; discriminate.
Qed.

Lemma In_dget : forall V k (v : V) d, NoDup (dkeys d) -> In (k, v) d -> dget k d = Some v.
Proof.
  induction d as [|[k' v'] d IH]; simpl; intros ND H; [tauto|].
  inversion ND; subst. destruct H as [H|H].
  - inversion H; subst. now rewrite eqb_refl.
  - destruct (String.eqb k k') eqn:E; auto. apply String.eqb_eq in E; subst.
    exfalso. apply H2. change k' with (fst (k', v)). now apply in_map.
Qed.

Lemma dmem_true : forall V k (d : dict V), dmem k d = true <-> In k (dkeys d).
Proof.
  intros. unfold dmem. rewrite <- dget_keys. destruct (dget k d); split; congruence.
Qed.

Lemma dmem_false : forall V k (d : dict V), dmem k d = false <-> ~ In k (dkeys d).
Proof.
  intros. rewrite <- dmem_true. destruct (dmem k d); split; congruence.
Qed.

Lemma dmem_dget : forall V k (d : dict V), dmem k d = true <-> exists v, dget k d = Some v.
Proof.
  intros. unfold dmem. destruct (dget k d); split; intros; try congruence; eauto.
  destruct H; congruence.
Qed.

Lemma dget_dset : forall V k k' (v : V) d,
  dget k (dset k' v d) = if String.eqb k k' then Some v else dget k d.
Proof.
  induction d as [|[k1 v1] d IH]; simpl.
  - destruct (String.eqb k k'); auto.
  - destruct (String.eqb k' k1) eqn:E; simpl.
    + apply String.eqb_eq in E; subst. destruct (String.eqb k k1); auto.
    + rewrite IH. destruct (String.eqb k k1) eqn:E1; auto.
      apply String.eqb_eq in E1; subst. rewrite String.eqb_sym, E. reflexivity.
Qed.

Lemma dget_dset_same : forall V k (v : V) d, dget k (dset k v d) = Some v.
Proof. intros. now rewrite dget_dset, eqb_refl. Qed.

Lemma dget_dset_other : forall V k k' (v : V) d, k <> k' -> dget k (dset k' v d) = dget k d.
Proof.
  intros. rewrite dget_dset. apply String.eqb_neq in H. now rewrite H.
Qed.

Lemma dkeys_dset : forall V k (v : V) d,
  dkeys (dset k v d) = if dmem k d then dkeys d else dkeys d ++ [k].
Proof.
  unfold dmem. induction d as [|[k1 v1] d IH]; simpl; auto.
  destruct (String.eqb k k1) eqn:E; simpl.
  - reflexivity.
  - unfold dkeys in *. rewrite IH. destruct (dget k d); reflexivity.
Qed.

Lemma In_dkeys_dset : forall V k k' (v : V) d,
  In k (dkeys (dset k' v d)) <-> k = k' \/ In k (dkeys d).
Proof.
  intros. rewrite dkeys_dset. destruct (dmem k' d) eqn:E.
  - apply dmem_true in E. split; auto. intros [->|]; auto.
  - rewrite in_app_iff. simpl. split; intros; intuition.
Qed.

Lemma NoDup_app_single : forall A (l : list A) x, NoDup l -> ~ In x l -> NoDup (l ++ [x]).
Proof.
  induction l; simpl; intros; [constructor; auto; constructor|].
  inversion H; subst. constructor.
  - rewrite in_app_iff; simpl. intuition.
  - apply IHl; auto.
Qed.

Lemma NoDup_dset : forall V k (v : V) d, NoDup (dkeys d) -> NoDup (dkeys (dset k v d)).
Proof.
  intros. rewrite dkeys_dset. destruct (dmem k d) eqn:E; auto.
  apply NoDup_app_single; auto. now apply dmem_false.
Qed.

Lemma length_dset : forall V k (v : V) d,
  length (dset k v d) = if dmem k d then length d else S (length d).
Proof.
  unfold dmem. induction d as [|[k1 v1] d IH]; simpl; auto.
  destruct (String.eqb k k1) eqn:E; simpl; auto.
  rewrite IH. destruct (dget k d); auto.
Qed.

Lemma dget_ddel : forall V k k' (d : dict V), NoDup (dkeys d) ->
  dget k (ddel k' d) = if String.eqb k k' then None else dget k d.
Proof.
  induction d as [|[k1 v1] d IH]; simpl; intros ND.
  - destruct (String.eqb k k'); auto.
  - inversion ND; subst. destruct (String.eqb k' k1) eqn:E; simpl.
    + apply String.eqb_eq in E; subst. destruct (String.eqb k k1) eqn:E1; auto.
      apply String.eqb_eq in E1; subst. now apply dget_None.
    + rewrite IH by auto. destruct (String.eqb k k1) eqn:E1; auto.
      apply String.eqb_eq in E1; subst. rewrite String.eqb_sym, E. reflexivity.
Qed.

Lemma dkeys_ddel_In : forall V k k' (d : dict V), NoDup (dkeys d) ->
  (In k (dkeys (ddel k' d)) <-> k <> k' /\ In k (dkeys d)).
Proof.
  intros. rewrite <- !dget_keys. rewrite dget_ddel by auto.
  destruct (String.eqb k k') eqn:E.
  - apply String.eqb_eq in E. intuition.
  - apply String.eqb_neq in E. intuition.
Qed.

Lemma ddel_incl : forall V k x (d : dict V), In x (ddel k d) -> In x d.
Proof.
  induction d as [|[k1 v1] d IH]; simpl; auto.
  destruct (String.eqb k k1); simpl; intuition.
Qed.

Lemma NoDup_ddel : forall V k (d : dict V), NoDup (dkeys d) -> NoDup (dkeys (ddel k d)).
Proof.
  induction d as [|[k1 v1] d IH]; simpl; intros ND; [constructor|].
  inversion ND; subst. destruct (String.eqb k k1); auto.
  simpl. constructor; auto. intros H. apply H1.
  unfold dkeys in H. apply in_map_iff in H. destruct H as [[a b] [E H]]. simpl in E; subst.
  apply ddel_incl in H. change k1 with (fst (k1, b)). now apply in_map.
Qed.

Lemma smem_In : forall k l, smem k l = true <-> In k l.
Proof.
  unfold smem; intros. rewrite existsb_exists. split.
  - intros [x [H E]]. apply String.eqb_eq in E. now subst.
  - intros H. exists k. rewrite eqb_refl. auto.
Qed.

Lemma smem_false : forall k l, smem k l = false <-> ~ In k l.
Proof. intros. rewrite <- smem_In. destruct (smem k l); split; congruence. Qed.

Lemma In_sadd : forall x k l, In x (sadd k l) <-> x = k \/ In x l.
Proof.
  unfold sadd; intros. destruct (smem k l) eqn:E.
  - apply smem_In in E. split; auto. intros [->|]; auto.
  - rewrite in_app_iff; simpl. intuition.
Qed.

Lemma NoDup_sadd : forall k l, NoDup l -> NoDup (sadd k l).
Proof.
  unfold sadd; intros. destruct (smem k l) eqn:E; auto.
  apply NoDup_app_single; auto. now apply smem_false.
Qed.

(** ** Splitting and joining at the dot. *)
Lemma split_dot_nodot : forall s, has_dot s = false -> split_dot s = [s].
Proof.
  induction s; simpl; intros; auto.
  destruct (Ascii.eqb a dot) eqn:E; [discriminate|]. now rewrite IHs.
Qed.

Lemma split_dot_join : forall a b, has_dot a = false ->
  split_dot (a ++ String dot b) = a :: split_dot b.
Proof.
  induction a; simpl; intros; auto.
  destruct (Ascii.eqb a dot) eqn:E; [discriminate|]. now rewrite IHa.
Qed.

Lemma split_dot_nonempty : forall s, split_dot s <> [].
Proof.
  induction s; simpl; try discriminate. destruct (Ascii.eqb a dot); try discriminate.
  destruct (split_dot s); discriminate.
Qed.

Lemma has_dot_app : forall a b, has_dot (a ++ b) = has_dot a || has_dot b.
Proof.
  induction a; simpl; intros; auto. destruct (Ascii.eqb a dot); auto.
Qed.

Lemma split_dot_single : forall s x, split_dot s = [x] -> has_dot s = false /\ s = x.
Proof.
  induction s; simpl; intros x H.
  - inversion H; auto.
  - destruct (Ascii.eqb a dot) eqn:E.
    + exfalso. inversion H. now apply split_dot_nonempty in H2.
    + destruct (split_dot s) eqn:E2.
      * now apply split_dot_nonempty in E2.
      * inversion H; subst. destruct (IHs s0 eq_refl) as [H1 H2]. subst; auto.
Qed.

(** [s.split(".")] has two pieces exactly when [s] is [a.b] with dot-free [a], [b]. *)
Lemma split_dot_two : forall s a b, split_dot s = [a; b] ->
  s = (a ++ String dot b)%string /\ has_dot a = false /\ has_dot b = false.
Proof.
  induction s; simpl; intros x y H; [discriminate|].
  destruct (Ascii.eqb a dot) eqn:E.
  - apply Ascii.eqb_eq in E. subst. inversion H; subst. simpl.
    apply split_dot_single in H2. destruct H2; subst; auto.
  - destruct (split_dot s) as [|t ts] eqn:E2; [discriminate|].
    inversion H; subst. destruct (IHs t y eq_refl) as [H1 [H2 H3]].
    subst. simpl. rewrite E. auto.
Qed.

Lemma split_dot_has : forall s, has_dot s = false <-> length (split_dot s) = 1.
Proof.
  split; intros.
  - now rewrite split_dot_nodot.
  - destruct (split_dot s) as [|x [|]] eqn:E; try discriminate.
    now apply split_dot_single in E.
Qed.

Lemma join_dot_inj : forall a b c d,
  has_dot a = false -> has_dot b = false -> has_dot c = false -> has_dot d = false ->
  (a ++ String dot b = c ++ String dot d)%string -> a = c /\ b = d.
Proof.
  intros a b c d Ha Hb Hc Hd H.
  assert (E : split_dot (a ++ String dot b) = split_dot (c ++ String dot d)) by now rewrite H.
  rewrite !split_dot_join, !split_dot_nodot in E by auto. now inversion E.
Qed.

Lemma dget_app : forall V k (d1 d2 : dict V),
  dget k (d1 ++ d2) = match dget k d1 with Some v => Some v | None => dget k d2 end.
Proof.
  induction d1 as [|[k1 v1] d1 IH]; simpl; intros; auto.
  destruct (String.eqb k k1); auto.
Qed.

Lemma dset_new : forall V k (v : V) d, ~ In k (dkeys d) -> dset k v d = d ++ [(k, v)].
Proof.
  induction d as [|[k1 v1] d IH]; simpl; intros; auto.
  destruct (String.eqb k k1) eqn:E.
  - apply String.eqb_eq in E. subst. tauto.
  - rewrite IH; auto.
Qed.

Lemma dget_map : forall V W (f : V -> W) k d,
  dget k (map (fun kv => (fst kv, f (snd kv))) d) = option_map f (dget k d).
Proof.
  induction d as [|[k1 v1] d IH]; simpl; auto. destruct (String.eqb k k1); auto.
Qed.

Lemma dkeys_map : forall V W (f : V -> W) d,
  dkeys (map (fun kv => (fst kv, f (snd kv))) d) = dkeys d.
Proof. unfold dkeys; intros. rewrite map_map. reflexivity. Qed.

Lemma dset_same_id : forall V k (v : V) d, dget k d = Some v -> dset k v d = d.
Proof.
  induction d as [|[k1 v1] d IH]; simpl; intros; [discriminate|].
  destruct (String.eqb k k1) eqn:E.
  - inversion H; auto.
  - rewrite IH; auto.
Qed.
