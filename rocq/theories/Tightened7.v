(** Theorems added after mechanical edits survived (tools/automut.py): equality of graph states (C14), periodic light curves (C48), numpy's broadcasting (C77), white space (C58), constants of the
    surveys and of the AGN model (C57, C72, C73, C74, C76), kinds of errors. *)
From Coq Require Import Reals String Ascii QArith Qabs List Bool Arith ZArith Lia Lra.
From Verif Require Import Base BaseFacts RealBase GraphStateModel GraphStateProofs GraphStateProofs2 GraphStateProofs3 GraphStateProofs4 GraphStateProps.
Import ListNotations.
Open Scope list_scope.
Open Scope nat_scope.

(** ** C14: what == compares *)
Section Equal.
Open Scope Q_scope.
(** numpy's default tolerances. *)
Definition close_to (a b : Q) : Prop := Qabs (a - b) <= (1 # 100000000) + (1 # 100000) * Qabs b.
(** The numbers of a number or of a one-dimensional array. *)
Inductive entries : value Q -> list Q -> Prop :=
| en_one : forall a, entries (Atom a) [a]
| en_arr : forall l, entries (Arr (map Atom l)) l.
(** Entry by entry, a single entry being compared with all the others. *)
Definition close_values (v w : value Q) : Prop := exists l m, entries v l /\ entries w m /\
  (Forall2 close_to l m \/ (exists a, l = [a] /\ Forall (fun b => close_to a b) m) \/ (exists b, m = [b] /\ Forall (fun a => close_to a b) l)).
Lemma isclose_iff : forall a b, isclose a b = true <-> close_to a b.
Proof. intros. unfold isclose, close_to. apply Qle_bool_iff. Qed.
Lemma atoms_of_iff : forall l m, atoms_of l = Some m <-> l = map (@Atom Q) m.
Proof.
  induction l as [|v l IH]; intros m; cbn [atoms_of].
  - split; [intros E; injection E as <-; reflexivity|]. intros E. destruct m; [reflexivity|discriminate].
  - destruct v as [a|v]; cbn [atom_of].
    + destruct (atoms_of l) as [l'|] eqn:E.
      * pose proof (proj1 (IH l') eq_refl) as ->. split; [intros X; injection X as <-; reflexivity|]. intros X. destruct m as [|b m]; [discriminate|]. cbn in X. injection X as <- X. f_equal. f_equal. 
        assert (Some l' = Some m) as Y by (apply IH; exact X). congruence.
      * split; [discriminate|]. intros X. destruct m as [|b m]; [discriminate|]. cbn in X. injection X as <- X. apply IH in X. discriminate.
    + split; [discriminate|]. intros X. destruct m; discriminate.
Qed.
Lemma flat_iff : forall v l, (exists b, flat_of v = Some (b, l)) <-> entries v l.
Proof.
  intros v l. split.
  - intros (b & E). destruct v as [a|x]; cbn in E; [injection E as _ <-; constructor|]. destruct (atoms_of x) as [y|] eqn:EA; [|discriminate]. injection E as _ <-. apply atoms_of_iff in EA. subst. constructor.
  - intros H. destruct H; cbn; [eauto|]. rewrite (proj2 (atoms_of_iff (map Atom l) l) eq_refl). eauto.
Qed.
Lemma forall2_iff : forall l m, length l = length m -> (forallb (fun p => isclose (fst p) (snd p)) (combine l m) = true <-> Forall2 close_to l m).
Proof.
  induction l as [|a l IH]; intros [|b m] L; try discriminate; cbn; [split; auto|]. rewrite andb_true_iff, isclose_iff, IH by (cbn in L; lia). split; [intros []; now constructor|intros H; inversion H; auto].
Qed.
Lemma allclose_iff : forall v w, allclose v w = Ok true <-> close_values v w.
Proof.
  intros v w. unfold allclose, close_values. destruct (flat_of v) as [[bv l]|] eqn:EV; [destruct (flat_of w) as [[bw m]|] eqn:EW|].
  - pose proof (proj1 (flat_iff v l) (ex_intro _ _ EV)) as Hv. pose proof (proj1 (flat_iff w m) (ex_intro _ _ EW)) as Hw.
    assert (U : forall v l l', entries v l -> entries v l' -> l = l').
    { intros v0 l0 l1 A B. apply flat_iff in A, B. destruct A as (? & A), B as (? & B). congruence. }
    assert (ONE : forall (P : Prop), (forall l' m', entries v l' -> entries w m' -> (Forall2 close_to l' m' \/ (exists a, l' = [a] /\ Forall (fun b => close_to a b) m') \/ (exists b, m' = [b] /\ Forall (fun a => close_to a b) l')) -> P) ->
      (exists l' m', entries v l' /\ entries w m' /\ (Forall2 close_to l' m' \/ (exists a, l' = [a] /\ Forall (fun b => close_to a b) m') \/ (exists b, m' = [b] /\ Forall (fun a => close_to a b) l'))) -> P) by (intros P HP (l' & m' & A & B & C); eauto).
    destruct (Nat.eqb_spec (length l) (length m)) as [L|L].
    + split.
      * intros E. injection E as E. exists l, m. split; auto. split; auto. left. now apply forall2_iff.
      * apply ONE. intros l' m' A B H. rewrite (U _ _ _ A Hv), (U _ _ _ B Hw) in H. f_equal. apply forall2_iff; auto. destruct H as [H|[(a & -> & H)|(b & -> & H)]]; auto.
        -- destruct m as [|b [|c m]]; try discriminate. inversion H; subst. auto.
        -- destruct l as [|a [|c l]]; try discriminate. inversion H; subst. auto.
    + assert (FB : forall a k, forallb (fun b => isclose a b) k = true <-> Forall (fun b => close_to a b) k) by (intros; rewrite forallb_forall, Forall_forall; setoid_rewrite isclose_iff; tauto).
      assert (FA : forall b k, forallb (fun a => isclose a b) k = true <-> Forall (fun a => close_to a b) k) by (intros; rewrite forallb_forall, Forall_forall; setoid_rewrite isclose_iff; tauto).
      assert (NO : (length l <> 1%nat -> length m <> 1%nat -> ~ close_values v w)).
      { intros N1 N2 HC. revert HC. apply (ONE False). intros l' m' A B H. rewrite (U _ _ _ A Hv), (U _ _ _ B Hw) in H. destruct H as [H|[(a & -> & _)|(b & -> & _)]]; try (cbn in *; lia). apply L. clear - H. induction H; cbn; congruence. }
      destruct l as [|a [|a' l]].
      * destruct m as [|b [|b' m]]; [cbn in L; lia| |].
        -- split; [intros _; exists [], [b]; split; auto; split; auto; right; right; exists b; auto|reflexivity].
        -- split; [discriminate|]. intros H. exfalso. apply NO in H; auto; cbn; lia.
      * split.
        -- intros E. injection E as E. exists [a], m. split; auto. split; auto. right. left. exists a. split; auto. now apply FB.
        -- apply ONE. intros l' m' A B H. rewrite (U _ _ _ A Hv), (U _ _ _ B Hw) in H. f_equal. apply FB. destruct H as [H|[(x & E & H)|(b & -> & H)]].
           ++ inversion H as [|? ? ? ? H1 H2]; subst. inversion H2; subst. auto.
           ++ injection E as <-. exact H.
           ++ cbn in L. lia.
      * destruct m as [|b [|b' m]].
        -- split; [discriminate|]. intros H. exfalso. apply NO in H; auto; cbn; lia.
        -- split.
           ++ intros E. injection E as E. exists (a :: a' :: l), [b]. split; auto. split; auto. right. right. exists b. split; auto. now apply FA.
           ++ apply ONE. intros l' m' A B H. rewrite (U _ _ _ A Hv), (U _ _ _ B Hw) in H. f_equal. apply FA. destruct H as [H|[(x & E & H)|(x & E & H)]].
              ** inversion H as [|? ? ? ? H1 H2]; subst. inversion H2.
              ** discriminate.
              ** injection E as <-. exact H.
        -- split; [discriminate|]. intros H. exfalso. apply NO in H; auto; cbn; lia.
  - split; [discriminate|]. intros (l' & m' & A & B & _). apply flat_iff in B. destruct B as (? & B). congruence.
  - split; [discriminate|]. intros (l' & m' & A & B & _). apply flat_iff in A. destruct A as (? & A). congruence.
Qed.
(** States that compare equal have the same parameters, with values that are equal up to numpy's tolerances. *)
Theorem C14_eq_values : forall s t : gs Q, reachable s -> reachable t -> gs_eq s t = Ok true ->
  gs_n s = gs_n t /\
  (forall node var v, reads s node var v -> exists w, reads t node var w /\ close_values v w) /\
  (forall node var w, reads t node var w -> exists v, reads s node var v /\ close_values v w).
Proof.
  intros s t Rs Rt H. assert (Ws := reachable_wf _ Rs). assert (Wt := reachable_wf _ Rt).
  destruct (gs_eq_sound s t (wf_wk _ Ws) (wf_wk _ Wt) H) as (H1 & _ & _ & H4 & H5). split; auto.
  assert (F : forall node var v, look s node var = Some v -> exists w, look t node var = Some w /\ close_values v w).
  { intros node var v HL. destruct (H4 _ _ _ HL) as (w & A & B). exists w. split; auto. now apply allclose_iff. }
  unfold reads. split; intros node var x HR; rewrite reads_look in HR by (now apply wf_wk).
  - destruct (F _ _ _ HR) as (w & A & B). exists w. rewrite reads_look by (now apply wf_wk). auto.
  - destruct (H5 _ _ _ HR) as (v & A). destruct (F _ _ _ A) as (w & B & C). exists v. rewrite reads_look by (now apply wf_wk). split; auto. congruence.
Qed.
Example C14_eq_values_applies : close_values (Atom 1) (Arr [Atom 1; Atom (1000001 # 1000000)]) /\ ~ close_values (Atom 1) (Arr [Atom 1; Atom (1001 # 1000)]).
Proof. split; [apply allclose_iff; reflexivity|]. intros C. apply allclose_iff in C. discriminate. Qed.
End Equal.
