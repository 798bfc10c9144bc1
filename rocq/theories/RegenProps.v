(** C110: regenerating values from the PyTree of a state; [generate], [get_param], [list_params] and [set_allow_gradient]
    (src/lightcurvelynx/base_models.py 264-325, 440-450, 717-759, 973-1002). *)
From Coq Require Import String Ascii List Bool Arith ZArith Lia Relations.
From Verif Require Import Base BaseFacts Numerals GraphStateModel GraphStateProofs GraphStateProofs2 GraphStateProofs4 GraphStateProps
  NodeGraphModel NodeGraphProofs NodeSampleProofs NodeSampleProofs2 NodeGraphProps NodeTreeProofs NodeDepProps NodeRunProps RegenModel.
Import ListNotations.
Open Scope string_scope.
Open Scope list_scope.
Open Scope nat_scope.
#[local] Hint Resolve wf_wk reachable_wf : core.

(** ** Specification *)
(** The function of node [k] gives the same result whatever the state of the generators is. *)
Definition deterministic {A W} (func : W -> nat -> dict (value A) -> W * result (value A)) (k : nat) : Prop :=
  forall w1 w2 args, snd (func w1 k args) = snd (func w2 k args).
(** The parameters that the values in the tree [t] fix: those in the tree, constants, links to fixed parameters, and the results of
    deterministic functions all of whose arguments are fixed.  Not those that were passed as given arguments [g] when the state was made. *)
Inductive fixed_by {A W} (func : W -> nat -> dict (value A) -> W * result (value A)) (h : nheap A) (g : given A) (t : dict (dict (value A))) : nat -> string -> Prop :=
| by_tree : forall k n d name v, nth_error h k = Some n -> dget (nd_str n) t = Some d -> dget name d = Some v -> fixed_by func h g t k name
| by_constant : forall k n name s, nth_error h k = Some n -> In (name, s) (nd_setters n) -> st_type s = SConst ->
    (~ exists v, given_value g (nd_str n) name v) -> fixed_by func h g t k name
| by_link : forall k n name s j, nth_error h k = Some n -> In (name, s) (nd_setters n) -> st_type s = SModel \/ st_type s = SFunc -> st_dep s = Some j ->
    (~ exists v, given_value g (nd_str n) name v) -> fixed_by func h g t j (st_src s) -> fixed_by func h g t k name
| by_function : forall k n name, nth_error h k = Some n -> nd_fn n = true -> In name (nd_outs n) -> deterministic func k ->
    (~ exists v, given_value g (nd_str n) name v) -> (forall a, In a (nd_args n) -> fixed_by func h g t k a) -> fixed_by func h g t k name.

(** ** Proofs *)
Lemma reads_fun : forall A (g : gs A) nd name v v', reads g nd name v -> reads g nd name v' -> v = v'.
Proof. intros A g nd name v v' H1 H2. unfold reads in *. congruence. Qed.
Lemma expands_fun : forall A n (v u u' : value A), expands n v u -> expands n v u' -> u = u'.
Proof.
  intros A n v u u' [[E ->]|[NE [(a & -> & ->)|(l & -> & L & ->)]]] [[E' ->]|[NE' [(a' & H & ->)|(l' & H & L' & ->)]]]; try congruence; try discriminate.
Qed.
Lemma follows_reaches : forall A (h : nheap A) i k, walks h i k -> reaches h i k.
Proof.
  intros A h i k H. induction H as [i j (n & name & s & E & HI & G & D)|i|i j k _ IH1 _ IH2].
  - destruct (Nat.eq_dec j i) as [->|NE]; [apply rt_refl|]. apply rt_step. exists n, name, s. auto.
  - apply rt_refl.
  - eapply rt_trans; eauto.
Qed.
Lemma reaches_named : forall A fuel (h : nheap A) root h' i k, start_heap fuel h root = Ok h' -> reaches h' i k <-> reaches h i k.
Proof.
  intros A fuel h root h' i k EH. split; intros H.
  - induction H as [x y D|x|x y z _ IH1 _ IH2]; [apply rt_step; now apply (start_heap_deps _ _ _ _ _ x y EH)|apply rt_refl|eapply rt_trans; eauto].
  - induction H as [x y D|x|x y z _ IH1 _ IH2]; [apply rt_step; now apply (start_heap_deps _ _ _ _ _ x y EH)|apply rt_refl|eapply rt_trans; eauto].
Qed.
Lemma tree_nodup : forall A fuel (h : nheap A) (g : gs A) p i t, (forall k n, nth_error h k = Some n -> NoDup (map fst (nd_setters n))) ->
  NoDup (map fst p) -> (forall nd d, In (nd, d) p -> NoDup (map fst d)) -> pytree fuel h g p i = Ok t ->
  NoDup (map fst t) /\ forall nd d, In (nd, d) t -> NoDup (map fst d).
Proof.
  intros A. induction fuel as [|f IH]; intros h g p i t HN N1 N2 H; [discriminate|]. cbn [pytree] in H.
  destruct (nth_error h i) as [n|] eqn:E; [|discriminate]. destruct (nd_pos n); [|discriminate].
  match type of H with (if ?b then _ else _) = _ => destruct b end; [injection H as <-; auto|].
  assert (DS : forall (q : dict (dict (value A))) nd d, NoDup (map fst q) -> (forall nd d, In (nd, d) q -> NoDup (map fst d)) -> NoDup (map fst d) ->
     NoDup (map fst (dset nd d q)) /\ forall nd' d', In (nd', d') (dset nd d q) -> NoDup (map fst d')).
  { intros q nd d M1 M2 M3. split; [now apply (NoDup_dset _ nd d q)|]. intros nd' d' HI. assert (G : dget nd' (dset nd d q) = Some d').
    { apply In_dget; auto. now apply (NoDup_dset _ nd d q). }
    rewrite dget_dset in G. match type of G with (if ?b then _ else _) = _ => destruct b end; [congruence|]. eapply M2. apply dget_In. exact G. }
  revert H. generalize (nd_setters n). destruct (DS p (nd_str n) [] N1 N2) as [Q1 Q2]; [constructor|]. revert Q1 Q2. generalize (dset (nd_str n) [] p). clear N1 N2.
  intros q Q1 Q2 l. revert q Q1 Q2. induction l as [|[name s] l IHl]; intros q Q1 Q2 H; cbn [fold_res] in H; [injection H as <-; auto|].
  match type of H with (match ?b with Ok _ => _ | Err _ => _ end) = _ => destruct b as [q'|] eqn:ET; [|discriminate] end. apply (IHl q'); auto; clear H IHl; unfold tree_param in ET; destruct (st_grad s).
  - destruct (gs_item g (nd_str n) name) as [v|]; [|discriminate]. match type of ET with (match ?b with Some _ => _ | None => _ end) = _ => destruct b as [d|] eqn:ED; [|discriminate] end. injection ET as <-.
    apply DS; auto. apply (NoDup_dset _ name v d). eapply Q2. apply dget_In. exact ED.
  - destruct (st_dep s) as [j|]; [eapply IH; eauto|injection ET as <-; auto].
  - destruct (gs_item g (nd_str n) name) as [v|]; [|discriminate]. match type of ET with (match ?b with Some _ => _ | None => _ end) = _ => destruct b as [d|] eqn:ED; [|discriminate] end. injection ET as <-.
    apply DS; auto. apply (NoDup_dset _ name v d). eapply Q2. apply dget_In. exact ED.
  - destruct (st_dep s) as [j|]; [eapply IH; eauto|injection ET as <-; auto].
Qed.
Lemma tree_valid : forall A fuel (h : nheap A) (g : gs A) i t, well_formed h -> pytree fuel h g [] i = Ok t -> valid_given (GDict t).
Proof.
  intros A fuel h g i t WF H. destruct (tree_nodup _ _ _ _ [] _ _ (fun k n E => proj1 (WF k n E)) (NoDup_nil _) (fun nd d (X : In (nd, d) []) => match X with end) H). split; auto.
Qed.
Lemma tree_given : forall A (t : dict (dict (value A))) nd name v, valid_given (GDict t) ->
  given_value (GDict t) nd name v <-> exists d, dget nd t = Some d /\ dget name d = Some v.
Proof.
  intros A t nd name v [V1 V2]. cbn. split.
  - intros (d & H1 & H2). exists d. split; [apply In_dget; auto|apply In_dget; auto]. eapply V2; eauto.
  - intros (d & H1 & H2). exists d. split; apply dget_In; auto.
Qed.
(** Once the nodes have their names, sampling keeps them. *)
Lemma named_start : forall A fuel (h : nheap A) root h' n, start_heap fuel h root = Ok h' -> nth_error h' root = Some n -> nd_pos n <> None -> forall f, start_heap f h' root = Ok h'.
Proof. intros A fuel h root h' n EH E P f. unfold start_heap. rewrite E. destruct (nd_pos n); congruence. Qed.
Lemma tree_pos : forall A fuel (h : nheap A) (g : gs A) p i t, pytree fuel h g p i = Ok t -> exists n, nth_error h i = Some n /\ nd_pos n <> None.
Proof. intros A [|f] h g p i t H; [discriminate|]. cbn [pytree] in H. destruct (nth_error h i) as [n|]; [|discriminate]. exists n. split; auto. destruct (nd_pos n); [congruence|discriminate]. Qed.

(** ** C110 *)
(** The values of a state that the tree fixes come back when the tree is passed as given arguments: for every model (also one with circles),
    every number of samples and every state of the generators in the second run. *)
Theorem C110_regenerated : forall A W (func : W -> nat -> dict (value A) -> W * result (value A)) fuel h root g num w h1 m fuel_t t fuel2 w2 h2 m2,
  well_formed h -> valid_given g -> sample_parameters func fuel h root g num w = Ok (h1, m) -> distinct_names h h1 root ->
  pytree fuel_t h1 (sm_gs m) [] root = Ok t ->
  sample_parameters func fuel2 h1 root (GDict t) num w2 = Ok (h2, m2) ->
  h2 = h1 /\ forall k n name, reaches h root k -> nth_error h1 k = Some n -> fixed_by func h1 g t k name ->
    exists v, reads (sm_gs m) (nd_str n) name v /\ reads (sm_gs m2) (nd_str n) name v.
Proof.
  intros A W func fuel h root g num w h1 m fuel_t t fuel2 w2 h2 m2 WF VG RUN DN TREE RUN2.
  destruct (run_facts _ _ _ _ _ _ _ _ _ _ _ WF VG RUN) as (s0 & EH & ES & _ & Wf & (G1 & _) & _).
  destruct (start_state_spec _ _ _ _ VG ES) as (_ & SN & _).
  assert (WF1 := start_heap_wf _ _ _ _ _ EH WF). assert (VT := tree_valid _ _ _ _ _ _ WF1 TREE).
  destruct (tree_pos _ _ _ _ _ _ _ TREE) as (nr & Er & Pr). assert (EH1 := named_start _ _ _ _ _ _ EH Er Pr fuel2).
  destruct (run_facts _ _ _ _ _ _ _ _ _ _ _ WF1 VT RUN2) as (s2 & EH2 & ES2 & _ & Wf2 & (G1' & G2' & G3') & _).
  assert (h2 = h1) by congruence. subst h2. split; auto. destruct (start_state_spec _ _ _ _ VT ES2) as (_ & SN2 & _ & S4 & S5 & S6).
  assert (NUM : gs_n (sm_gs m) = Z.to_nat num) by congruence.
  assert (RE : forall k, reaches h root k -> reaches h1 root k) by (intros k R; now apply (reaches_named _ _ _ _ _ _ _ EH)).
  assert (UNI : forall nd d, dget nd t = Some d -> forall name v, dget name d = Some v -> reads (sm_gs m) nd name v).
  { intros nd d HD name v HV. destruct (C63_only_gradient_values _ _ _ _ _ _ (fun k n E => proj1 (WF1 k n E)) Wf TREE nd d HD) as (k & n & _ & _ & <- & X).
    destruct (X name v HV) as (s & _ & _ & Y). exact Y. }
  assert (TR : forall nd d name v, dget nd t = Some d -> dget name d = Some v -> reads (sm_gs m) nd name v /\ reads (sm_gs m2) nd name v).
  { intros nd d name v HD HV. assert (R1 := UNI _ _ HD _ _ HV). split; auto.
    assert (GV : given_value (GDict t) nd name v) by (apply tree_given; eauto).
    destruct (S5 _ _ _ GV) as (u & U1 & U2).
    assert (u = v).
    { assert (SH := R1). unfold reads in SH. apply reads_look in SH; auto. apply (wf_var _ Wf) in SH. destruct SH as [_ SH]. rewrite NUM, <- SN2 in SH.
      destruct U1 as [[_ ->]|[NE [(a & -> & ->)|(l & -> & L & ->)]]]; auto. destruct SH as [SH|(l & SH & _)]; [congruence|discriminate]. }
    subst u. unfold reads. apply reads_look; auto. }
  intros k n name R En F. revert n R En. induction F as [k n0 d name v E0 HD HV|k n0 name s E0 HI HT NG|k n0 name s j E0 HI HT HD NG _ IH|k n0 name E0 FN HO DET NG _ IH]; intros n R En;
    assert (n0 = n) by congruence; subst n0.
  - destruct (TR _ _ _ _ HD HV). eauto.
  - destruct (C19_linked_agree _ _ _ _ _ _ _ _ _ _ _ WF VG RUN k n name s R En HI NG) as [_ L1]. rewrite HT in L1. destruct L1 as (c & C1 & C2).
    destruct (dget (nd_str n) t) as [d|] eqn:ED; [destruct (dget name d) as [v|] eqn:EV|].
    { destruct (TR _ _ _ _ ED EV). eauto. }
    + destruct (C19_linked_agree _ _ _ _ _ _ _ _ _ _ _ WF1 VT RUN2 k n name s (RE _ R) En HI) as [_ L2].
      { intros (v & X). apply (tree_given _ t) in X; auto. destruct X as (d' & X1 & X2). congruence. }
      rewrite HT in L2. destruct L2 as (c' & C1' & C2'). assert (c' = c) by congruence. subst c'. eauto.
    + destruct (C19_linked_agree _ _ _ _ _ _ _ _ _ _ _ WF1 VT RUN2 k n name s (RE _ R) En HI) as [_ L2].
      { intros (v & X). apply (tree_given _ t) in X; auto. destruct X as (d' & X1 & X2). congruence. }
      rewrite HT in L2. destruct L2 as (c' & C1' & C2'). assert (c' = c) by congruence. subst c'. eauto.
  - destruct (C19_linked_agree _ _ _ _ _ _ _ _ _ _ _ WF VG RUN k n name s R En HI NG) as [_ L1].
    assert (X1 : exists j d v, st_dep s = Some j /\ nth_error h1 j = Some d /\ reads (sm_gs m) (nd_str n) name v /\ reads (sm_gs m) (nd_str d) (st_src s) v)
      by (destruct HT as [T|T]; rewrite T in L1; exact L1).
    destruct X1 as (j' & d & v & D1 & D2 & D3 & D4). assert (j' = j) by congruence. subst j'.
    assert (RJ : reaches h root j).
    { destruct (Nat.eq_dec j k) as [->|NE]; auto. eapply rt_trans; [exact R|]. apply rt_step. apply (start_heap_deps _ _ _ _ _ k j EH). exists n, name, s. auto. }
    destruct (IH d RJ D2) as (v' & V1 & V2). assert (v' = v) by exact (reads_fun _ _ _ _ _ _ V1 D4). subst v'.
    assert (DG : (exists v, given_value (GDict t) (nd_str n) name v) \/ ~ exists v, given_value (GDict t) (nd_str n) name v).
    { destruct (dget (nd_str n) t) as [e|] eqn:ED; [destruct (dget name e) as [x|] eqn:EV|].
      - left. exists x. apply tree_given; eauto.
      - right. intros (x & X). apply (tree_given _ t) in X; auto. destruct X as (? & ? & ?). congruence.
      - right. intros (x & X). apply (tree_given _ t) in X; auto. destruct X as (? & ? & ?). congruence. }
    destruct DG as [(x & X)|NG2].
    + apply (tree_given _ t) in X; auto. destruct X as (e & X1 & X2). destruct (TR _ _ _ _ X1 X2). eauto.
    + destruct (C19_linked_agree _ _ _ _ _ _ _ _ _ _ _ WF1 VT RUN2 k n name s (RE _ R) En HI NG2) as [_ L2].
      assert (X2 : exists j d v, st_dep s = Some j /\ nth_error h1 j = Some d /\ reads (sm_gs m2) (nd_str n) name v /\ reads (sm_gs m2) (nd_str d) (st_src s) v)
        by (destruct HT as [T|T]; rewrite T in L2; exact L2).
      destruct X2 as (j' & d' & v' & Y1 & Y2 & Y3 & Y4). assert (j' = j) by congruence. subst j'. assert (d' = d) by congruence. subst d'.
      assert (v' = v) by exact (reads_fun _ _ _ _ _ _ Y4 V2). subst v'. eauto.
  - assert (DG : (exists v, given_value (GDict t) (nd_str n) name v) \/ ~ exists v, given_value (GDict t) (nd_str n) name v).
    { destruct (dget (nd_str n) t) as [e|] eqn:ED; [destruct (dget name e) as [x|] eqn:EV|].
      - left. exists x. apply tree_given; eauto.
      - right. intros (x & X). apply (tree_given _ t) in X; auto. destruct X as (? & ? & ?). congruence.
      - right. intros (x & X). apply (tree_given _ t) in X; auto. destruct X as (? & ? & ?). congruence. }
    destruct DG as [(x & X)|NG2].
    { apply (tree_given _ t) in X; auto. destruct X as (e & X1 & X2). destruct (TR _ _ _ _ X1 X2). eauto. }
    destruct (WF1 _ _ En) as (_ & NDO & WO). destruct (WO _ HO) as (so & O1 & O2).
    destruct (C22_run_consistent _ _ _ _ _ _ _ _ _ _ _ WF VG RUN k n R En FN) as (a1 & x1 & x2 & r & C1 & C2 & C3 & C4 & C5); [eauto|].
    destruct (C22_run_consistent _ _ _ _ _ _ _ _ _ _ _ WF1 VT RUN2 k n (RE _ R) En FN) as (a1' & x1' & x2' & r' & C1' & C2' & C3' & C4' & C5'); [eauto|].
    assert (AA : a1' = a1).
    { assert (EV : forall a v v', In (a, v) a1 -> In (a, v') a1' -> v' = v).
      { intros a v v' I1 I2. assert (HA : In a (nd_args n)) by (rewrite <- C2; apply (in_map fst) in I1; exact I1).
        destruct (IH a HA n R En) as (u & U1 & U2). rewrite (reads_fun _ _ _ _ _ _ (C3 _ _ I1) U1), (reads_fun _ _ _ _ _ _ (C3' _ _ I2) U2). reflexivity. }
      clear - C2 C2' EV. revert EV C2 C2'. generalize (nd_args n). intros l. revert l a1'. induction a1 as [|[a v] a1 IH]; intros l a1' EV H1 H2.
      - cbn in H1. subst l. destruct a1'; [auto|discriminate].
      - destruct l as [|b l]; [discriminate|]. cbn in H1. injection H1 as <- H1. destruct a1' as [|[b v'] a1']; [discriminate|]. cbn in H2. injection H2 as -> H2. f_equal.
        + f_equal. eapply EV; now left.
        + eapply IH; eauto. intros x y y' I1 I2. eapply EV; right; eauto. }
    subst a1'. assert (r' = r) as ->.
    { assert (X := DET x1 x1' a1). rewrite C1, C1' in X. cbn in X. congruence. }
    destruct (Nat.eq_dec (length (nd_outs n)) 1) as [L1|L1].
    + assert (EO : nd_outs n = [name]). { destruct (nd_outs n) as [|o [|]]; try discriminate. destruct HO as [->|[]]. reflexivity. }
      destruct (C4 name EO NG) as (u & U1 & U2). destruct (C4' name EO NG2) as (u' & U1' & U2'). assert (u' = u) by (eapply expands_fun; eauto). subst u'. eauto.
    + destruct (C5 L1) as (l & -> & LL & C6). destruct (C5' L1) as (l' & EL & LL' & C6'). injection EL as <-.
      destruct (In_nth_error _ _ HO) as (p & HP). destruct (nth_error l p) as [x|] eqn:EX.
      2:{ apply nth_error_None in EX. assert (p < length (nd_outs n)) by (apply nth_error_Some; congruence). lia. }
      destruct (C6 p name x HP EX NG) as (u & U1 & U2). destruct (C6' p name x HP EX NG2) as (u' & U1' & U2'). assert (u' = u) by (eapply expands_fun; eauto). subst u'. eauto.
Qed.

(** *** The tree exists and the second run succeeds. *)
Lemma tree_total : forall A (h : nheap A) (g : gs A) (rank : nat -> nat), no_dangling h -> (forall i j, depends h i j -> rank j < rank i) ->
  (forall k n, nth_error h k = Some n -> NoDup (map fst (nd_setters n))) ->
  forall f stack p i, NoDup stack -> (forall k, In k stack -> k < length h) -> length h < f + length stack -> i < length h -> (forall k, In k stack -> rank i < rank k) ->
  (forall k n, reaches h i k -> nth_error h k = Some n -> nd_pos n <> None /\ has_dot (nd_str n) = false /\
     forall name s, In (name, s) (nd_setters n) -> look g (nd_str n) name <> None) ->
  exists t, pytree f h g p i = Ok t /\ exists n, nth_error h i = Some n /\ dmem (nd_str n) t = true /\ forall x, dmem x p = true -> dmem x t = true.
Proof.
  intros A h g rank ND RK HN. induction f as [|f IH]; intros stack p i ST1 ST2 HF HI HR HA.
  { exfalso. assert (length stack <= length h). { rewrite <- (seq_length (length h) 0). apply NoDup_incl_length; auto. intros k X. apply in_seq. apply ST2 in X. lia. } lia. }
  assert (NI : ~ In i stack) by (intros X; apply HR in X; lia).
  assert (LS : S (length stack) <= length h).
  { change (S (length stack)) with (length (i :: stack)). rewrite <- (seq_length (length h) 0). apply NoDup_incl_length; [now constructor|].
    intros k [->|X]; apply in_seq; [lia|]. apply ST2 in X. lia. }
  destruct (nth_error h i) as [n|] eqn:E; [|apply nth_error_None in E; lia].
  destruct (HA i n (rt_refl _ _ _) E) as (P1 & P2 & P3).
  cbn [pytree]. rewrite E. destruct (nd_pos n) as [ps|]; [|congruence].
  match goal with |- context[if ?b then _ else _] => destruct b eqn:EM end; [exists p; split; auto; exists n; auto|].
  assert (LOOP : forall l q, incl l (nd_setters n) -> dmem (nd_str n) q = true ->
     exists t, fold_res (tree_param (pytree f h g) g n) q l = Ok t /\ dmem (nd_str n) t = true /\ forall x, dmem x q = true -> dmem x t = true).
  { induction l as [|[name s] l IHl]; intros q IN HQ; [exists q; auto|].
    assert (STEP : exists q', tree_param (pytree f h g) g n q (name, s) = Ok q' /\ dmem (nd_str n) q' = true /\ forall x, dmem x q = true -> dmem x q' = true).
    { unfold tree_param. destruct (st_grad s).
      - destruct (item_ok g (nd_str n) name P2) as (v & -> & _); [eapply P3; apply IN; now left|].
        destruct (proj1 (dmem_dget _ _ _) HQ) as (d & HD). assert (MON : forall x, dmem x q = true -> dmem x (dset (nd_str n) (dset name v d) q) = true).
        { intros x X. apply dmem_dget. apply dmem_dget in X. destruct X as (y & X). rewrite dget_dset. destruct (String.eqb x (nd_str n)); eauto. }
        exists (dset (nd_str n) (dset name v d) q). split; [now rewrite HD|]. auto.
      - destruct (st_dep s) as [j|] eqn:ED; [|exists q; auto]. destruct (Nat.eq_dec j i) as [->|NE].
        + exists q. split; auto. destruct f as [|f']; [lia|]. cbn [pytree]. rewrite E. destruct (nd_pos n) eqn:EP; [now rewrite HQ|].
          destruct (HA i n (rt_refl _ _ _) E) as (Q1 & _). congruence.
        + assert (DJ : depends h i j) by (exists n, name, s; repeat split; auto; apply IN; now left).
          destruct (IH (i :: stack) q j) as (t & T1 & (nj & _ & T2 & T3)).
          * now constructor.
          * intros k [->|X]; auto.
          * cbn [length]. lia.
          * eapply ND; eauto.
          * intros k [<-|X]; [now apply RK|]. transitivity (rank i); auto.
          * intros k nk R. apply HA. eapply rt_trans; [apply rt_step; exact DJ|exact R].
          * exists t. auto. }
    destruct STEP as (q' & S1 & S2 & S3). destruct (IHl q') as (t & T1 & T2 & T3); [intros x X; apply IN; now right|auto|].
    exists t. cbn [fold_res]. split; [|auto]. etransitivity; [|exact T1].
    match goal with |- (match ?b with Ok _ => _ | Err _ => _ end) = _ => replace b with (@Ok (dict (dict (value A))) q') by (symmetry; exact S1) end. reflexivity. }
  destruct (LOOP (nd_setters n) (dset (nd_str n) [] p)) as (t & T1 & T2 & T3).
  - apply incl_refl.
  - apply dmem_dget. rewrite dget_dset_same. eauto.
  - exists t. split; auto. exists n. split; auto. split; auto. intros x X. apply T3. apply dmem_dget. apply dmem_dget in X. destruct X as (y & X). rewrite dget_dset.
    destruct (String.eqb x (nd_str n)); eauto.
Qed.

Lemma split_same : forall B (a y : list (string * B)) k v b z, a ++ (k, v) :: b = y ++ (k, v) :: z -> NoDup (map fst (a ++ (k, v) :: b)) -> a = y.
Proof.
  intros B. induction a as [|[x sx] a IH]; intros y k v b z EL H; destruct y as [|[x' sy] y]; auto; cbn in EL.
  - injection EL as <- <- EL. cbn in H. inversion H; subst. exfalso. apply H2. rewrite map_app. cbn. apply in_or_app. right. now left.
  - injection EL as -> -> EL. cbn in H. inversion H; subst. exfalso. apply H2. rewrite map_app. cbn. apply in_or_app. right. now left.
  - injection EL as <- <- EL. f_equal. eapply IH; eauto. cbn in H. now inversion H.
Qed.
(** For every model that C103 samples (acyclic, distinct names, functions that succeed on good values) and whose functions do not use random numbers:
    the tree of the sampled state exists, sampling again with the tree as given arguments succeeds from every state of the generators, and every parameter of every
    node has the value it had.  Values given for the first sampling must be in the tree. *)
Theorem C110_same : forall A W (func : W -> nat -> dict (value A) -> W * result (value A))
    (fine : W -> Prop) (good : nat -> string -> value A -> Prop) fuel h root g num w h' w2,
  well_formed h -> valid_given g -> no_dangling h -> acyclic h -> (1 <= num)%Z -> length h < fuel -> fine w -> fine w2 ->
  start_heap fuel h root = Ok h' -> distinct_names h h' root ->
  (forall k n, reaches h root k -> nth_error h' k = Some n -> node_runs func fine good h' (Z.to_nat num) k n) ->
  given_fits good h h' root (Z.to_nat num) g ->
  (forall k n, reaches h root k -> nth_error h' k = Some n -> nd_pos n <> None /\ deterministic func k) ->
  exists m t, sample_parameters func fuel h root g num w = Ok (h', m) /\ pytree fuel h' (sm_gs m) [] root = Ok t /\
    ((forall nd name v, given_value g nd name v -> exists d u, dget nd t = Some d /\ dget name d = Some u) ->
     exists m2, sample_parameters func fuel h' root (GDict t) num w2 = Ok (h', m2) /\
       forall k n name s, reaches h root k -> nth_error h' k = Some n -> In (name, s) (nd_setters n) ->
         exists v, reads (sm_gs m) (nd_str n) name v /\ reads (sm_gs m2) (nd_str n) name v).
Proof.
  intros A W func fine good fuel h root g num w h' w2 WF VG ND AC HN HF FW FW2 EH DN RUNS GF DET.
  destruct (C103_sampling_succeeds _ _ _ _ _ _ _ _ _ _ _ _ WF VG ND AC HN HF FW EH DN RUNS GF) as (m & RUN & _ & NUM & ALL).
  destruct AC as [rank AC]. destruct (start_heap_spec _ _ _ _ _ EH) as [LEN _]. assert (WF1 := start_heap_wf _ _ _ _ _ EH WF).
  destruct (run_facts _ _ _ _ _ _ _ _ _ _ _ WF VG RUN) as (s0 & _ & _ & _ & Wf & _).
  assert (RT : root < length h).
  { unfold start_heap in EH. apply nth_error_Some. destruct (nth_error h root); [discriminate|discriminate EH]. }
  assert (ND' : no_dangling h').
  { intros i j D. rewrite LEN. apply (ND i j). now apply (start_heap_deps _ _ _ _ _ i j EH). }
  assert (AC' : forall i j, depends h' i j -> rank j < rank i).
  { intros i j D. apply AC. now apply (start_heap_deps _ _ _ _ _ i j EH). }
  assert (RE : forall k, reaches h root k <-> reaches h' root k) by (intros k; symmetry; apply (reaches_named _ _ _ _ _ _ _ EH)).
  destruct (tree_total A h' (sm_gs m) rank ND' AC' (fun k n E => proj1 (WF1 k n E)) fuel [] [] root) as (t & TREE & _).
  { constructor. } { intros k []. } { cbn. lia. } { lia. } { intros k []. }
  { intros k n R En. apply RE in R. split; [apply (DET _ _ R En)|]. destruct (RUNS _ _ R En) as (D1 & _). split; auto. intros name s HI.
    destruct (ALL _ _ _ _ R En HI) as (v & V & _). unfold reads in V. apply reads_look in V; auto. congruence. }
  exists m, t. split; auto. split; auto. intros GT.
  assert (VT := tree_valid _ _ _ _ _ _ WF1 TREE).
  destruct (tree_pos _ _ _ _ _ _ _ TREE) as (nr & Er & Pr). assert (EH1 := named_start _ _ _ _ _ _ EH Er Pr fuel).
  destruct (C103_sampling_succeeds A W func fine good fuel h' root (GDict t) num w2 h' WF1 VT ND') as (m2 & RUN2 & _); auto.
  { exists rank; auto. } { lia. }
  { intros k1 k2 n1 n2 R1 R2. apply DN; now apply RE. }
  { intros k n R. apply RUNS. now apply RE. }
  { split; [exact I|]. intros nd name v GV. apply (tree_given _ t) in GV; auto. destruct GV as (d & HD & HV).
    destruct (C63_only_gradient_values _ _ _ _ _ _ (fun k n E => proj1 (WF1 k n E)) Wf TREE nd d HD) as (k & n & Wk & En & <- & X).
    destruct (X name v HV) as (s & HI & _ & RD). assert (R : reaches h root k) by (apply RE; now apply follows_reaches).
    destruct (RUNS _ _ R En) as (D1 & D2 & _). destruct (D2 _ _ HI) as (D3 & _). split; auto. split; auto.
    assert (SH := RD). unfold reads in SH. apply reads_look in SH; auto. apply (wf_var _ Wf) in SH. destruct SH as [_ SH]. rewrite NUM in SH. split.
    - intros (NE & l & -> & L). destruct SH as [SH|(l' & SH & L')]; [congruence|]. injection SH as <-. congruence.
    - intros k' n' u R' En' EQ EX. assert (k' = k) by (exact (DN k' k n' n (proj2 (RE k') R') R En' En EQ)). subst k'. assert (n' = n) by congruence. subst n'.
      assert (u = v). { destruct EX as [[_ ->]|[NE [(a & -> & ->)|(l & -> & L & ->)]]]; auto. destruct SH as [SH|(l & SH & _)]; [congruence|discriminate]. }
      subst u. destruct (ALL _ _ _ _ R En HI) as (v' & V1 & V2). now rewrite (reads_fun _ _ _ _ _ _ RD V1). }
  exists m2. split; auto. intros k n name s R En HI.
  destruct (C110_regenerated _ _ _ _ _ _ _ _ _ _ _ _ _ _ _ _ _ WF VG RUN DN TREE RUN2) as [_ X]. eapply X; eauto. clear X.
  assert (NOTG : forall k n name, nth_error h' k = Some n -> fixed_by func h' g t k name \/ ~ exists v, given_value g (nd_str n) name v).
  { intros k0 n0 name0 E0. destruct (dget (nd_str n0) t) as [d|] eqn:ED; [destruct (dget name0 d) as [v|] eqn:EV|].
    - left. eapply by_tree; eauto.
    - right. intros (v & V). destruct (GT _ _ _ V) as (d' & u & D1 & D2). congruence.
    - right. intros (v & V). destruct (GT _ _ _ V) as (d' & u & D1 & D2). congruence. }
  clear RUN2 TREE VT GT. remember (rank k) as r eqn:Hr. revert k n name s R En HI Hr. induction r as [r IHr] using lt_wf_ind. intros k n name s R En HI ->.
  destruct (RUNS _ _ R En) as (D1 & D2 & D3).
  assert (Q : forall c l1 l2, length l1 = c -> nd_setters n = l1 ++ l2 -> forall nm sx, In (nm, sx) l1 -> st_type sx <> SCompute -> fixed_by func h' g t k nm).
  { intros c. induction c as [c IHc] using lt_wf_ind. intros l1 l2 HL EL nm sx HIn NC. destruct (NOTG k n nm En) as [|NG]; auto.
    assert (HS : In (nm, sx) (nd_setters n)) by (rewrite EL; apply in_or_app; auto). destruct (D2 _ _ HS) as (_ & PR).
    destruct (st_type sx) eqn:ET; try congruence; try tauto; [eapply by_constant; eauto| |];
    destruct PR as (j & d & P1 & P2 & P3 & _); (eapply by_link; [exact En|exact HS|rewrite ET; auto|exact P1|exact NG|]); destruct (j =? k) eqn:EJ.
    1,3: apply Nat.eqb_eq in EJ; subst j; destruct P3 as (a & b & P4 & P5 & P6); apply in_map_iff in P5; destruct P5 as ((x & s') & P5 & P7); cbn in P5; subst x;
      apply (IHc (length a)) with (l1 := a) (l2 := (nm, sx) :: b) (sx := s'); auto;
      apply in_split in HIn; destruct HIn as (y & z & ->); subst c; rewrite app_length; cbn [length];
      rewrite <- app_assoc in EL; cbn in EL; rewrite P4 in EL; assert (a = y) as -> by (eapply split_same; [exact EL|rewrite <- P4; apply (WF1 _ _ En)]); lia.
    all: apply Nat.eqb_neq in EJ; assert (DJ : depends h' k j) by (exists n, nm, sx; auto); apply in_map_iff in P3; destruct P3 as ((x & s') & P3 & P4); cbn in P3; subst x;
      apply (IHr (rank j)) with (n := d) (s := s'); auto; eapply rt_trans; [exact R|]; apply rt_step; now apply (start_heap_deps _ _ _ _ _ k j EH). }
  assert (OTHERS : forall nm sx, In (nm, sx) (nd_setters n) -> st_type sx <> SCompute -> fixed_by func h' g t k nm).
  { intros nm sx. apply (Q (length (nd_setters n)) (nd_setters n) []); auto. now rewrite app_nil_r. }
  destruct (NOTG k n name En) as [|NG]; auto. destruct (D2 _ _ HI) as (_ & PR). destruct (st_type s) eqn:ET; try (eapply OTHERS; [exact HI|congruence]).
  destruct PR as (FN & HO). destruct (D3 ltac:(eauto) FN) as (_ & AR & _). eapply by_function; eauto.
  - apply (DET _ _ R En).
  - intros a HA. destruct (AR a HA) as (sa & A1 & A2). eapply OTHERS; eauto.
Qed.

(** *** [get_param] *)
Theorem C110_get_param : forall A (g : gs A) nd name default, wf g ->
  (forall v, reads g nd name v -> get_param g nd name default = Ok v) /\
  (has_dot nd = false -> (forall v, ~ reads g nd name v) -> (forall x v, ~ reads g x nd v) -> get_param g nd name default = Ok default).
Proof.
  intros A g nd name default Wf. split.
  - intros v R. unfold reads in R. apply reads_look in R; auto. unfold look in R. unfold get_param, gs_contains, gs_getitem, dmem.
    destruct (dget nd (gs_states g)) as [d|] eqn:E; [|discriminate]. cbn [gs_states]. now rewrite R.
  - intros DN NR NX. unfold get_param, gs_contains, gs_getitem, dmem. destruct (dget nd (gs_states g)) as [d|] eqn:E.
    + destruct (dget name d) as [v|] eqn:EV; auto. exfalso. apply (NR v). unfold reads. apply reads_look; auto. unfold look. now rewrite E.
    + rewrite DN. destruct (gs_states g) as [|[x d] [|]] eqn:ES; auto. destruct (dget nd d) as [v|] eqn:EV; auto. exfalso. apply (NX x v). unfold reads. apply reads_look; auto.
      unfold look. rewrite ES. cbn. now rewrite String.eqb_refl, EV.
Qed.

(** *** [generate] *)
(** Sampling, then the value of the only output, or the list of the values of the outputs in their order; whatever keyword arguments. *)
Theorem C110_generate : forall A W (none : value A) (func : W -> nat -> dict (value A) -> W * result (value A)) fuel h i g num w h' m n kwargs,
  well_formed h -> valid_given g -> sample_parameters func fuel h i g num w = Ok (h', m) -> nth_error h' i = Some n -> nd_fn n = true ->
  exists r, generate none func fuel h i g num kwargs w = Ok (h', sm_w m, r) /\
    match nd_outs n with
    | [o] => exists v, r = GenOne v /\ reads (sm_gs m) (nd_str n) o v
    | outs => exists l, r = GenList l /\ Forall2 (fun o v => reads (sm_gs m) (nd_str n) o v) outs l
    end.
Proof.
  intros A W none func fuel h i g num w h' m n kwargs WF VG RUN En FN.
  destruct (run_facts _ _ _ _ _ _ _ _ _ _ _ WF VG RUN) as (s0 & EH & ES & _ & Wf & G & _). assert (WF1 := start_heap_wf _ _ _ _ _ EH WF).
  destruct (start_state_spec _ _ _ _ VG ES) as (_ & _ & _ & S4 & _).
  assert (R : reaches h i i) by apply rt_refl.
  assert (OUT : forall o, In o (nd_outs n) -> exists v, reads (sm_gs m) (nd_str n) o v).
  { intros o HO. destruct (WF1 _ _ En) as (_ & _ & WO). destruct (WO _ HO) as (so & O1 & O2).
    assert (DG : (exists v, given_value g (nd_str n) o v) \/ ~ exists v, given_value g (nd_str n) o v).
    { destruct (is_fixed s0 (nd_str n) o) eqn:EF.
      - left. apply S4. unfold fixed_in. unfold is_fixed in EF. destruct (dget (nd_str n) (gs_fixed s0)) as [l|]; [|discriminate]. exists l. split; auto. now apply smem_In.
      - right. intros X. apply S4 in X. unfold fixed_in in X. destruct X as (l & L1 & L2). unfold is_fixed in EF. rewrite L1 in EF. apply smem_In in L2. congruence. }
    destruct DG as [(v & GV)|NG].
    { destruct (C20_given_args_returned _ _ _ _ _ _ _ _ _ _ _ WF VG RUN _ _ _ GV) as (u & _ & U). eauto. }
    destruct (C22_run_consistent _ _ _ _ _ _ _ _ _ _ _ WF VG RUN i n R En FN ltac:(eauto)) as (args & w1 & w2 & r & _ & _ & _ & C4 & C5).
    destruct (Nat.eq_dec (length (nd_outs n)) 1) as [L1|L1].
    - assert (EO : nd_outs n = [o]). { destruct (nd_outs n) as [|x [|]]; try discriminate. destruct HO as [->|[]]. reflexivity. }
      destruct (C4 o EO NG) as (u & _ & U). eauto.
    - destruct (C5 L1) as (l & _ & LL & C6). destruct (In_nth_error _ _ HO) as (p & HP). destruct (nth_error l p) as [x|] eqn:EX.
      + destruct (C6 p o x HP EX NG) as (u & _ & U). eauto.
      + apply nth_error_None in EX. assert (p < length (nd_outs n)) by (apply nth_error_Some; congruence). lia. }
  assert (ALL : forall outs, incl outs (nd_outs n) -> exists l, get_all none (sm_gs m) (nd_str n) outs = Ok l /\ Forall2 (fun o v => reads (sm_gs m) (nd_str n) o v) outs l).
  { induction outs as [|o outs IH]; intros HI; [exists []; split; auto|]. destruct (OUT o (HI o (or_introl eq_refl))) as (v & V).
    destruct IH as (l & L1 & L2); [intros x X; apply HI; now right|]. exists (v :: l). split; [|now constructor]. cbn [get_all].
    rewrite (proj1 (C110_get_param _ _ (nd_str n) o none Wf) v V). cbn [bind]. now rewrite L1. }
  destruct (ALL (nd_outs n) (incl_refl _)) as (l & L1 & L2). unfold generate. rewrite RUN. cbn [bind]. rewrite En.
  destruct (nd_outs n) as [|o [|o2 outs]].
  - rewrite L1. cbn [bind]. eexists. split; [reflexivity|]. eauto.
  - destruct (OUT o (or_introl eq_refl)) as (v & V). rewrite (proj1 (C110_get_param _ _ (nd_str n) o none Wf) v V). cbn [bind]. eexists. split; [reflexivity|]. eauto.
  - rewrite L1. cbn [bind]. eexists. split; [reflexivity|]. eauto.
Qed.
Theorem C110_generate_error : forall A W (none : value A) (func : W -> nat -> dict (value A) -> W * result (value A)) fuel h i g num w kwargs e,
  sample_parameters func fuel h i g num w = Err e -> generate none func fuel h i g num kwargs w = Err e.
Proof. intros A W none func fuel h i g num w kwargs e H. unfold generate. now rewrite H. Qed.
(** The documented "additional function arguments" have no effect. *)
Theorem C110_kwargs_refuted : forall A W (none : value A) (func : W -> nat -> dict (value A) -> W * result (value A)) fuel h i g num w kwargs kwargs',
  generate none func fuel h i g num kwargs w = generate none func fuel h i g num kwargs' w.
Proof. reflexivity. Qed.

(** *** [list_params], [set_allow_gradient] *)
Theorem C110_list_params : forall A (h : nheap A) i n, nth_error h i = Some n ->
  list_params h i = Ok (map fst (nd_setters n)).
Proof. intros A h i n E. unfold list_params. now rewrite E. Qed.
(** Nodes that are the same but for the gradient flags. *)
Definition same_setter {A} (s s' : setter A) : Prop := st_type s' = st_type s /\ st_dep s' = st_dep s /\ st_src s' = st_src s /\ st_const s' = st_const s.
Definition same_params {A} (d d' : dict (setter A)) : Prop := Forall2 (fun p p' => fst p' = fst p /\ same_setter (snd p) (snd p')) d d'.
Definition same_node {A} (n n' : node A) : Prop :=
  nd_label n' = nd_label n /\ nd_class n' = nd_class n /\ nd_fn n' = nd_fn n /\ nd_func n' = nd_func n /\ nd_pos n' = nd_pos n /\ nd_str n' = nd_str n /\
  nd_args n' = nd_args n /\ nd_outs n' = nd_outs n /\ nd_attrs n' = nd_attrs n /\ same_params (nd_setters n) (nd_setters n').
Definition same_model {A} (h h' : nheap A) : Prop := Forall2 same_node h h'.

Lemma same_setter_refl : forall A (s : setter A), same_setter s s.
Proof. intros A s. repeat split. Qed.
Lemma same_params_refl : forall A (d : dict (setter A)), same_params d d.
Proof. intros A d. induction d as [|p d IH]; constructor; auto. split; auto. apply same_setter_refl. Qed.
Lemma same_node_refl : forall A (n : node A), same_node n n.
Proof. intros A n. unfold same_node. repeat match goal with |- _ /\ _ => split end; auto. apply same_params_refl. Qed.
Lemma same_model_refl : forall A (h : nheap A), same_model h h.
Proof. intros A h. induction h as [|n h IH]; constructor; auto. apply same_node_refl. Qed.
Lemma same_params_dset : forall A (d : dict (setter A)) name s s', dget name d = Some s -> same_setter s s' -> same_params d (dset name s' d).
Proof.
  intros A d name s s' G HS. induction d as [|[k v] d IH]; [discriminate|]. cbn [dget dset] in *. destruct (String.eqb name k) eqn:E.
  - apply String.eqb_eq in E. subst k. injection G as ->. constructor; [|apply same_params_refl]. split; auto.
  - constructor; [|exact (IH G)]. split; auto. apply same_setter_refl.
Qed.
Lemma same_nth : forall A (h h' : nheap A), same_model h h' -> forall i, match nth_error h i, nth_error h' i with Some n, Some n' => same_node n n' | None, None => True | _, _ => False end.
Proof. intros A h h' H. induction H as [|n n' h h' HN _ IH]; intros [|i]; cbn; auto. apply IH. Qed.
Lemma same_upd : forall A (h h' : nheap A) i n n', same_model h h' -> same_node n n' -> same_model (upd i n h) (upd i n' h').
Proof. intros A h h' i n n' H HN. revert i. induction H as [|x x' h h' HX H IH]; intros [|i]; cbn; constructor; auto. apply IH. Qed.

Theorem C110_set_allow_gradient : forall A (h : nheap A) i name b,
  match set_allow_gradient h i name b with
  | Ok h' =>
      (* only the flag of that parameter changes *)
      same_model h h' /\ length h' = length h /\
      forall k n n', nth_error h k = Some n -> nth_error h' k = Some n' ->
        forall nm s, dget nm (nd_setters n) = Some s -> exists s', dget nm (nd_setters n') = Some s' /\ same_setter s s' /\
          st_grad s' = (if (k =? i) && String.eqb nm name then b else st_grad s)
  | Err e => forall n, nth_error h i = Some n -> e = KeyError /\ ~ In name (map fst (nd_setters n))
  end.
Proof.
  intros A h i name b. unfold set_allow_gradient. destruct (nth_error h i) as [n|] eqn:E; [|discriminate]. destruct (dget name (nd_setters n)) as [s|] eqn:G.
  - unfold put_setter. rewrite E. set (s1 := mkSet (st_type s) (st_dep s) (st_src s) (st_const s) b).
    assert (SN : same_node n (with_setters n (dset name s1 (nd_setters n)))).
    { unfold same_node, with_setters. cbn. repeat match goal with |- _ /\ _ => split end; auto. eapply same_params_dset; eauto. repeat split. }
    split; [|split].
    + clear G. revert i E. induction h as [|x h IH]; intros [|i] E; cbn in *; try discriminate.
      * injection E as ->. constructor; auto. apply same_model_refl.
      * constructor; [apply same_node_refl|now apply IH].
    + clear. revert i. induction h as [|x h IH]; intros [|i]; cbn; auto.
    + intros k nk nk' E1 E2 nm sx GX. destruct (Nat.eq_dec k i) as [->|NE].
      * rewrite Nat.eqb_refl. assert (nk = n) by congruence. subst nk. assert (EU : nth_error (upd i (with_setters n (dset name s1 (nd_setters n))) h) i = Some (with_setters n (dset name s1 (nd_setters n)))).
        { clear - E. revert i E. induction h as [|x h IH]; intros [|i] E; cbn in *; try discriminate; auto. }
        rewrite EU in E2. injection E2 as <-. cbn [with_setters nd_setters]. rewrite dget_dset. cbn [andb]. destruct (String.eqb nm name) eqn:EN.
        -- apply String.eqb_eq in EN. subst nm. assert (sx = s) by congruence. subst sx. exists s1. repeat split.
        -- exists sx. repeat split; auto.
      * assert (EU : nth_error (upd i (with_setters n (dset name s1 (nd_setters n))) h) k = nth_error h k).
        { clear - NE. revert i k NE. induction h as [|x h IH]; intros [|i] [|k] NE; cbn; auto; congruence. }
        rewrite EU in E2. assert (nk' = nk) by congruence. subst nk'. apply Nat.eqb_neq in NE. rewrite NE. exists sx. repeat split; auto.
  - intros n' E'. injection E' as <-. split; auto. intros HI. apply dget_keys in HI. congruence.
Qed.

(** Sampling does not look at the flags: the sampled state, or the error, is the same. *)
Lemma same_positions : forall A fuel (h1 h2 : nheap A) seen i, same_model h1 h2 ->
  match positions fuel h1 seen i, positions fuel h2 seen i with
  | Ok (a, s1), Ok (b, s2) => same_model a b /\ s1 = s2
  | Err e1, Err e2 => e1 = e2
  | _, _ => False
  end.
Proof.
  intros A. induction fuel as [|f IH]; intros h1 h2 seen i SM; cbn [positions]; auto.
  destruct (existsb (Nat.eqb i) seen); auto. assert (X := same_nth _ _ _ SM i). destruct (nth_error h1 i) as [n1|], (nth_error h2 i) as [n2|]; try contradiction; auto.
  assert (SM2 : same_model (upd i (renamed (with_pos n1 (Some (length seen)))) h1) (upd i (renamed (with_pos n2 (Some (length seen)))) h2)).
  { apply same_upd; auto. destruct X as (X1 & X2 & X3 & X4 & X5 & X6 & X7 & X8 & X9 & X10). unfold same_node, renamed, with_str, with_pos, node_string. cbn.
    rewrite X1, X2, X3, X4. repeat match goal with |- _ /\ _ => split end; auto. }
  destruct X as (_ & _ & _ & _ & _ & _ & _ & _ & _ & SP). revert SM2. generalize (upd i (renamed (with_pos n1 (Some (length seen)))) h1) (upd i (renamed (with_pos n2 (Some (length seen)))) h2) (seen ++ [i]).
  induction SP as [|[k1 s1] [k2 s2] d1 d2 [_ (Y1 & Y2 & Y3 & Y4)] _ IHd]; intros a b sn SM2; cbn [map fold_res snd fst] in *; auto.
  rewrite Y2. destruct (st_dep s1) as [j|]; [|apply (IHd a b sn SM2)]. destruct (j =? i); [apply (IHd a b sn SM2)|].
  assert (Z := IH a b sn j SM2). destruct (positions f a sn j) as [[a1 t1]|], (positions f b sn j) as [[b1 t2]|]; try contradiction; auto.
  destruct Z as [Z1 <-]. apply (IHd a1 b1 t1 Z1).
Qed.
Lemma same_helper : forall A W (func : W -> nat -> dict (value A) -> W * result (value A)) fuel (h1 h2 : nheap A) m i, same_model h1 h2 ->
  sample_helper func fuel h2 m i = sample_helper func fuel h1 m i.
Proof.
  intros A W func. induction fuel as [|f IH]; intros h1 h2 m i SM; cbn [sample_helper]; auto.
  assert (X := same_nth _ _ _ SM i). destruct (nth_error h1 i) as [n1|], (nth_error h2 i) as [n2|]; try contradiction; auto.
  destruct X as (X1 & X2 & X3 & X4 & X5 & X6 & X7 & X8 & X9 & SP). rewrite X6. destruct (dget (nd_str n1) (sm_seen m)); auto.
  assert (FO : forall mm, fold_res (sample_param (sample_helper func f h2) h2 i n2) mm (nd_setters n2) = fold_res (sample_param (sample_helper func f h1) h1 i n1) mm (nd_setters n1)).
  { clear X1 X2 X3 X4 X5 X7 X8 X9. induction SP as [|[k1 s1] [k2 s2] d1 d2 [Y0 (Y1 & Y2 & Y3 & Y4)] _ IHd]; intros mm; cbn [fold_res]; auto. cbn [fst snd] in *. subst k2.
    assert (ST : sample_param (sample_helper func f h2) h2 i n2 mm (k1, s2) = sample_param (sample_helper func f h1) h1 i n1 mm (k1, s1)).
    { unfold sample_param. rewrite Y1, Y2, Y3, Y4, X6.
      assert (RC : match st_dep s1 with Some j => if j =? i then Ok mm else sample_helper func f h2 mm j | None => Ok mm end =
                   match st_dep s1 with Some j => if j =? i then Ok mm else sample_helper func f h1 mm j | None => Ok mm end).
      { destruct (st_dep s1) as [j|]; auto. destruct (j =? i); auto. }
      rewrite RC. clear RC. match goal with |- match ?x with _ => _ end = _ => destruct x as [mr|]; auto end.
      destruct (st_type s1); auto; destruct (st_dep s1) as [j|]; auto; assert (Z := same_nth _ _ _ SM j); destruct (nth_error h1 j) as [a|], (nth_error h2 j) as [b|]; try contradiction; auto;
      destruct Z as (_ & _ & _ & _ & _ & Z & _); now rewrite Z. }
    rewrite ST. destruct (sample_param (sample_helper func f h1) h1 i n1 mm (k1, s1)); auto. }
  rewrite FO. match goal with |- match ?x with _ => _ end = _ => destruct x as [mr|]; auto end.
  assert (EXI : existsb (fun ps => is_compute (snd ps)) (nd_setters n2) = existsb (fun ps => is_compute (snd ps)) (nd_setters n1)).
  { clear FO. induction SP as [|[k1 s1] [k2 s2] d1 d2 [_ (Y1 & _)] _ IHd]; cbn; auto. rewrite IHd. unfold is_compute. cbn [snd] in *. now rewrite Y1. }
  rewrite EXI. unfold compute. now rewrite X3, X4, X6, X7, X8.
Qed.
Theorem C110_flags_do_not_matter : forall A W (func : W -> nat -> dict (value A) -> W * result (value A)) fuel (h1 h2 : nheap A) root g num w, same_model h1 h2 ->
  match sample_parameters func fuel h1 root g num w, sample_parameters func fuel h2 root g num w with
  | Ok (a, m1), Ok (b, m2) => m1 = m2 /\ same_model a b
  | Err e1, Err e2 => e1 = e2
  | _, _ => False
  end.
Proof.
  intros A W func fuel h1 h2 root g num w SM. unfold sample_parameters.
  assert (SH : match start_heap fuel h1 root, start_heap fuel h2 root with Ok a, Ok b => same_model a b | Err e1, Err e2 => e1 = e2 | _, _ => False end).
  { unfold start_heap. assert (X := same_nth _ _ _ SM root). destruct (nth_error h1 root) as [n1|], (nth_error h2 root) as [n2|]; try contradiction; auto.
    destruct X as (_ & _ & _ & _ & X5 & _). rewrite X5. destruct (nd_pos n1); auto. assert (Z := same_positions _ fuel _ _ [] root SM).
    destruct (positions fuel h1 [] root) as [[a s]|], (positions fuel h2 [] root) as [[b s2]|]; try contradiction; auto. apply Z. }
  destruct (start_heap fuel h1 root) as [a|], (start_heap fuel h2 root) as [b|]; try contradiction; auto.
  destruct (start_state g num) as [s|]; auto. rewrite (same_helper _ _ func fuel a b _ root SH). destruct (sample_helper func fuel a (mkSM s [] w []) root); auto.
Qed.
(** A parameter whose flag is off is not in the tree. *)
Theorem C110_disabled_not_in_tree : forall A (h h' : nheap A) (g : gs A) root fuel i name t n,
  well_formed h' -> wf g -> set_allow_gradient h i name false = Ok h' -> walk_names h' root ->
  nth_error h' i = Some n -> walks h' root i -> pytree fuel h' g [] root = Ok t ->
  forall d, dget (nd_str n) t = Some d -> dget name d = None.
Proof.
  intros A h h' g root fuel i name t n WF Wf SA WN En WI TREE d HD. destruct (dget name d) as [v|] eqn:EV; auto. exfalso.
  destruct (C63_only_gradient_values _ _ _ _ _ _ (fun k n E => proj1 (WF k n E)) Wf TREE _ _ HD) as (k & n' & Wk & En' & EQ & X). destruct (X _ _ EV) as (s & HI & SG & _).
  assert (k = i) by (eapply WN; eauto). subst k. assert (n' = n) by congruence. subst n'.
  assert (Y := C110_set_allow_gradient _ h i name false). rewrite SA in Y. destruct Y as (_ & LEN & Y). destruct (nth_error h i) as [n0|] eqn:E0.
  2:{ apply nth_error_None in E0. assert (i < length h') by (apply nth_error_Some; congruence). lia. }
  assert (GS : dget name (nd_setters n) = Some s) by (apply In_dget; auto; apply (WF _ _ En)).
  unfold set_allow_gradient in SA. rewrite E0 in SA. destruct (dget name (nd_setters n0)) as [s0|] eqn:G0; [|discriminate].
  destruct (Y i n0 n E0 En name s0 G0) as (s' & Z1 & _ & Z3). rewrite Nat.eqb_refl, String.eqb_refl in Z3. cbn in Z3. congruence.
Qed.

(** *** Values of random nodes do not come back. *)
Definition dice_heap : nheap Z :=
  [ex_node None "Src" false [("x", as_function 1 "function_node_result"); ("c", as_constant (Atom 4%Z))] [] [];
   ex_node None "FunctionNode" true [("function_node_result", as_compute_output undefined "function_node_result")] [] ["function_node_result"]].
Definition dice_func (w : nat) (i : nat) (args : dict (value Z)) : nat * result (value Z) := (S w, Ok (Atom (Z.of_nat w))).
Theorem C110_random_refuted : exists h1 m t m2,
  well_formed dice_heap /\ sample_parameters dice_func 5 dice_heap 0 GNone 1 3 = Ok (h1, m) /\ pytree 5 h1 (sm_gs m) [] 0 = Ok t /\
  sample_parameters dice_func 5 h1 0 (GDict t) 1 (sm_w m) = Ok (h1, m2) /\
  reads (sm_gs m) "Src_0" "x" (Atom 3%Z) /\ reads (sm_gs m2) "Src_0" "x" (Atom 4%Z).
Proof.
  do 4 eexists. split.
  { intros k n E. destruct k as [|[|k]]; cbn in E; [| |destruct k; discriminate]; injection E as <-; cbn;
      (split; [repeat constructor; cbn; intuition discriminate|split; [repeat constructor; cbn; intuition discriminate|]]); try tauto.
    intros o [<-|[]]. eexists. split; [left; reflexivity|reflexivity]. }
  split; [vm_compute; reflexivity|]. split; [vm_compute; reflexivity|]. split; [vm_compute; reflexivity|]. split; vm_compute; reflexivity.
Qed.

(** *** A case: the model of C18, sampled any number of times, comes back from its tree. *)
Theorem C110_case : forall num w w2, (1 <= num)%Z -> exists h' m t m2,
  sample_parameters ex_func 5 ex_heap 0 GNone num w = Ok (h', m) /\ pytree 5 h' (sm_gs m) [] 0 = Ok t /\
  sample_parameters ex_func 5 h' 0 (GDict t) num w2 = Ok (h', m2) /\
  forall k n name s, reaches ex_heap 0 k -> nth_error h' k = Some n -> In (name, s) (nd_setters n) ->
    exists v, reads (sm_gs m) (nd_str n) name v /\ reads (sm_gs m2) (nd_str n) name v.
Proof.
  intros num w w2 HN. destruct ex_start as (h' & EH & X1 & X2 & X3 & X4 & X5 & X6).
  assert (HK : 1 <= Z.to_nat num) by lia.
  destruct h' as [|n0 [|n1 [|n2 [|]]]]; try discriminate.
  cbn [map ex_heap ex_node nd_str nd_setters nd_outs nd_args nd_fn nd_func] in X1, X2, X3, X4, X5, X6.
  injection X1 as A0 A1 A2. injection X2 as B0 B1 B2. injection X3 as C0 C1 C2. injection X4 as D0 D1 D2. injection X5 as E0 E1 E2.
  injection X6 as F0 F1 F2.
  assert (PO : forall n, In n [n0; n1; n2] -> nd_pos n <> None).
  { assert (PS : forall h0, start_heap 5 ex_heap 0 = Ok h0 -> forallb (fun n => match nd_pos n with Some _ => true | None => false end) h0 = true) by (intros h0 EH0; vm_compute in EH0; injection EH0 as <-; reflexivity).
    intros n HI. apply PS in EH. rewrite forallb_forall in EH. apply EH in HI. destruct (nd_pos n); congruence. }
  destruct (C110_same Z nat ex_func (fun _ => True) (fun _ _ v => shaped (Z.to_nat num) v) 5 ex_heap 0 GNone num w [n0; n1; n2] w2)
    as (m & t & M1 & M2 & M3); auto; try exact I.
  - apply ex_heap_wf.
  - intros i j H. apply depends_ndeps in H.
    destruct i as [|[|[|[|i]]]]; simpl in H; repeat (destruct H as [<-|H]; [simpl; lia|]); destruct H.
  - apply ex_heap_acyclic.
  - intros k1 k2 m1 m2 _ _ H1 H2 EQ.
    destruct k1 as [|[|[|[|]]]]; try discriminate; (destruct k2 as [|[|[|[|]]]]; try discriminate);
      cbn in H1, H2; injection H1 as <-; injection H2 as <-; auto; congruence.
  - intros k n _ En. destruct k as [|[|[|[|]]]]; try discriminate; cbn in En; injection En as <-; unfold node_runs, param_runs, function_runs.
    + rewrite A0, B0. split; [reflexivity|]. split.
      * intros name s [H|[H|[H|[]]]]; injection H as <- <-; (split; [reflexivity|]); cbn [as_parameter as_function as_constant st_type st_dep st_src st_const].
        -- exists 2, n2. split; [reflexivity|]. split; [reflexivity|]. split; [cbn [Nat.eqb]; rewrite B2; simpl; tauto|auto].
        -- exists 1, n1. split; [reflexivity|]. split; [reflexivity|]. split; [cbn [Nat.eqb]; rewrite B1; simpl; tauto|auto].
        -- eexists. split; [reflexivity|]. apply shaped_const.
      * rewrite E0. discriminate.
    + rewrite A1, B1, C1, D1, E1, F1. split; [reflexivity|]. split.
      * intros name s [H|[H|[H|[H|[]]]]]; injection H as <- <-; (split; [reflexivity|]); cbn [as_parameter as_function as_constant as_compute_output st_type st_dep st_src st_const].
        -- exists 2, n2. split; [reflexivity|]. split; [reflexivity|]. split; [cbn [Nat.eqb]; rewrite B2; simpl; tauto|auto].
        -- eexists. split; [reflexivity|]. apply shaped_const.
        -- simpl. auto.
        -- simpl. auto.
      * intros _ _. split; [discriminate|]. split.
        -- intros a [<-|[<-|[]]]; eexists; (split; [simpl; eauto|discriminate]).
        -- intros w0 args _ EA HG. destruct args as [|[a va] [|[b vb] [|]]]; try discriminate. injection EA as -> ->.
           exists (S w0), (Arr [vb; va]). split; [reflexivity|]. split; [exact I|]. exists [vb; va]. split; auto. split; auto.
           intros [|[|p]] o x Ho Hx; cbn in Ho, Hx; try (destruct p; discriminate); injection Ho as <-; injection Hx as <-.
           ++ apply shaped_expands; auto. apply (HG "b"). simpl; auto.
           ++ apply shaped_expands; auto. apply (HG "a"). simpl; auto.
    + rewrite A2, B2. split; [reflexivity|]. split.
      * intros name s [H|[]]; injection H as <- <-. split; [reflexivity|]. eexists. split; [reflexivity|]. apply shaped_const.
      * rewrite E2. discriminate.
  - split; [exact I|]. intros nd name v [].
  - intros k n _ En. split; [apply PO; eapply nth_error_In; eauto|]. intros w1 w3 args. unfold ex_func. destruct args as [|[] [|[] [|]]]; reflexivity.
  - destruct M3 as (m2 & M3 & M4); [intros nd name v []|]. exists [n0; n1; n2], m, t, m2. auto.
Qed.
Example C110_generate_case : exists h' w', generate (Atom 0%Z) ex_func 5 ex_heap 1 (GDict [("base", [("z", Arr [Atom 6%Z; Atom 7%Z])])]) 2 [] 0 =
  Ok (h', w', GenList [Arr [Atom 1%Z; Atom 1%Z]; Arr [Atom 6%Z; Atom 7%Z]]).
Proof. do 2 eexists. vm_compute. reflexivity. Qed.
Example C110_flag_case : exists h', set_allow_gradient ex_heap 2 "z" false = Ok h' /\ h' <> ex_heap /\ set_allow_gradient ex_heap 2 "q" false = Err KeyError.
Proof. eexists. split; [vm_compute; reflexivity|]. split; [discriminate|reflexivity]. Qed.
