(** A parameter whose declaration fails. *)
From Coq Require Import List Bool Arith Lia.
From Coq Require Import String.
From Verif Require Import Base BaseFacts GraphStateModel NodeGraphModel KwargsModel.
Import ListNotations.
Open Scope string_scope.
Open Scope list_scope.

Section Failed.
Context {A : Type}.
Lemma upd_hit : forall (h : nheap A) i n x, nth_error h i = Some x -> nth_error (upd i n h) i = Some n.
Proof. induction h as [|y h IH]; intros [|i] n x H; simpl in *; try discriminate; eauto. Qed.
(** When [add_parameter] of a new name fails because of its value (a missing parameter of another node, the node itself,
    ...), the parameter is declared all the same: without a value, without a source and not differentiated. *)
Theorem C118_failed : forall none (h : nheap A) i n name given grad kw h' e,
  nth_error h i = Some n -> dget name (nd_setters n) = None -> smem name (nd_attrs n) = false ->
  (forall f, resolve none name given kw <> PCall f) ->
  add_parameter_kw none h i name given grad kw = (h', Some e) ->
  exists n', nth_error h' i = Some n' /\
    dget name (nd_setters n') = Some (mkSet SUndef None "" None false) /\
    forall m, m <> name -> dget m (nd_setters n') = dget m (nd_setters n).
Proof.
  intros none h i n name given grad kw h' e EN EG EA NC H. unfold add_parameter_kw in H. set (v := resolve none name given kw) in *.
  unfold add_parameter_with in H. rewrite EN, EA in H. unfold dmem in H. rewrite EG in H. cbn [andb negb] in H.
  set (h1 := put_setter h i name undefined) in *.
  assert (E1 : nth_error h1 i = Some (with_setters n (dset name undefined (nd_setters n)))).
  { unfold h1, put_setter. rewrite EN. eapply upd_hit; eauto. }
  assert (E2 : forall h2, set_parameter_with (wrap_kw none kw) h1 i name v = (h2, Some e) ->
     h2 = upd i (with_pos (with_setters n (dset name undefined (nd_setters n))) None) h1).
  { intros h2 E. unfold set_parameter_with in E. rewrite E1 in E. cbn [with_pos with_setters nd_setters] in E.
    rewrite dget_dset, String.eqb_refl in E. destruct v as [j m|f|j|c] eqn:EV.
    - destruct (nth_error _ j) as [d|].
      + destruct (dmem m (nd_setters d)); [exfalso; apply (f_equal snd) in E; cbn in E; congruence|]. apply (f_equal fst) in E. cbn in E. now rewrite <- E.
      + apply (f_equal fst) in E. cbn in E. now rewrite <- E.
    - now destruct (NC f).
    - destruct (nth_error _ j) as [d|].
      + destruct (nd_fn d); [exfalso; apply (f_equal snd) in E; cbn in E; congruence|].
        destruct (j =? i)%nat; [|destruct (negb _); [|exfalso; apply (f_equal snd) in E; cbn in E; congruence]]; apply (f_equal fst) in E; cbn in E; now rewrite <- E.
      + apply (f_equal fst) in E. cbn in E. now rewrite <- E.
    - exfalso. apply (f_equal snd) in E. cbn in E. congruence. }
  destruct (set_parameter_with (wrap_kw none kw) h1 i name v) as [h2 [e2|]] eqn:ES.
  - injection H as <- <-. rewrite (E2 _ eq_refl). eexists. split; [eapply upd_hit; eauto|]. cbn [with_pos with_setters nd_setters].
    rewrite dget_dset, String.eqb_refl. split; [reflexivity|]. intros m N. rewrite dget_dset. apply String.eqb_neq in N.
    now rewrite N.
  - exfalso. apply (f_equal snd) in H. destruct grad; [|cbn in H; congruence]. destruct (nth_error h2 i) as [n2|]; [|cbn in H; congruence].
    destruct (dget name (nd_setters n2)); cbn in H; congruence.
Qed.
End Failed.
