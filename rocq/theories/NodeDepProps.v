(** Properties C61-C63: parameter bookkeeping, the dependency graph of a model and its PyTree
    (src/lightcurvelynx/base_models.py 356-520, 655-759, 812-930). *)
From Coq Require Import String Ascii List Bool Arith ZArith Lia Relations.
From Verif Require Import Base BaseFacts Numerals GraphStateModel GraphStateProofs GraphStateProofs2
  GraphStateProofs4 GraphStateProps DependencyGraphModel DependencyGraphProps
  NodeGraphModel NodeGraphProofs NodeDepProofs NodeTreeProofs NodeSampleProofs2 NodeGraphProps.
Import ListNotations.
Open Scope string_scope.
Open Scope list_scope.
Open Scope nat_scope.

(** ** C62 *)
Definition has_edge (g : dgraph) (a b : string) : Prop :=
  exists l, dget b (dg_in g) = Some l /\ In a l.
(** Distinct reachable nodes have distinct names (otherwise sampling raises, C21). *)
Definition distinct_names {A} (h h' : nheap A) (root : nat) : Prop :=
  forall k1 k2 n1 n2, reaches h root k1 -> reaches h root k2 ->
    nth_error h' k1 = Some n1 -> nth_error h' k2 = Some n2 -> nd_str n1 = nd_str n2 -> k1 = k2.

Section C62.
Context {A : Type}.
Variable render : option (value A) -> string.

(** The name a parameter has in the dependency graph, for node [n]. *)
Definition pname (n : node A) (name : string) : string := (nd_str n ++ String "."%char name)%string.
(** The three kinds of edges. *)
Definition link_edge (h' : nheap A) (k : nat) (a b : string) : Prop :=
  exists n name s j d, nth_error h' k = Some n /\ In (name, s) (nd_setters n) /\ b = pname n name /\
    st_dep s = Some j /\ j <> k /\ nth_error h' j = Some d /\ a = pname d (st_src s).
Definition output_edge (h' : nheap A) (k : nat) (a b : string) : Prop :=
  exists n name s x, nth_error h' k = Some n /\ nd_fn n = true /\ In (name, s) (nd_setters n) /\
    st_type s = SCompute /\ In x (nd_args n) /\ a = pname n x /\ b = pname n name.
Definition constant_edge (h' : nheap A) (k : nat) (c : nat) (a b : string) : Prop :=
  exists n name s, nth_error h' k = Some n /\ In (name, s) (nd_setters n) /\ b = pname n name /\
    st_type s = SConst /\ (st_dep s = None \/ st_dep s = Some k) /\
    a = const_name c (render (st_const s)).

Lemma dep_facts : forall fuel (h h' : nheap A) root g,
  start_heap fuel h root = Ok h' -> distinct_names h h' root ->
  build_dependency_graph render fuel h root = Ok g ->
  exists E, dg_wf g E /\
    (forall a b, In (a, b) E -> exists k, reaches h root k /\ edge_of render h' k a b) /\
    (forall p, In p (dg_params g) -> exists k, reaches h root k /\ name_of render h' k p) /\
    (forall k, reaches h root k -> node_done render h' k g E).
Proof.
  intros fuel h h' root g EH DN H. unfold build_dependency_graph in H. rewrite EH in H.
  destruct (dep_spec render fuel h' dg_new root g [] new_wf H) as (E & (D1 & D2 & D3 & D4 & D5 & D6) & D7).
  assert (RE : forall a b, reaches h a b <-> reach h' a b).
  { intros a b. rewrite <- reaches_reach. split; intros Q; induction Q.
    - apply rt_step. now apply (start_heap_deps _ _ _ _ _ x y EH).
    - apply rt_refl.
    - eapply rt_trans; eauto.
    - apply rt_step. now apply (start_heap_deps _ _ _ _ _ x y EH).
    - apply rt_refl.
    - eapply rt_trans; eauto. }
  exists E. sp; auto.
  - intros a b Hab. destruct (D4 _ _ Hab) as [[]|(k & K1 & K2)]. exists k. split; auto. now apply RE.
  - intros p Hp. destruct (D5 _ Hp) as [[]|(k & K1 & K2)]. exists k. split; auto. now apply RE.
  - assert (V : forall k, reaches h root k -> visited h' g k ->
       node_done render h' k g E /\ forall j, In j (ndeps h' k) -> visited h' g j).
    { intros k HR (d & V1 & [V2|V2]).
      - split.
        + exists d. rewrite V2. sp; auto; simpl; tauto.
        + intros j Hj. unfold ndeps in Hj. rewrite V1, V2 in Hj. destruct Hj.
      - destruct (D6 _ V2) as [[]|(k' & n' & K1 & K2 & K3 & K4 & K5)].
        assert (k' = k) by (eapply DN; eauto; now apply RE). subst. auto. }
    assert (ALL : forall a b, clos_refl_trans_1n nat (fun i j => In j (ndeps h' i)) a b ->
       reaches h root a -> visited h' g a -> visited h' g b).
    { intros a b Hab. induction Hab as [|a b c HS HT IHt]; auto. intros HR HV. apply IHt.
      - eapply rt_trans; [exact HR|]. apply RE. apply rt_step. exact HS.
      - eapply V; eauto. }
    intros k HR. apply V; auto. eapply ALL; [| |exact D7].
    + apply clos_rt_rt1n. apply RE. exact HR.
    + apply rt_refl.
Qed.

Theorem C62_parameters_listed : forall fuel (h h' : nheap A) root g,
  start_heap fuel h root = Ok h' -> distinct_names h h' root ->
  build_dependency_graph render fuel h root = Ok g ->
  (forall k n name s, reaches h root k -> nth_error h' k = Some n -> In (name, s) (nd_setters n) ->
     In (pname n name) (dg_params g)) /\
  (forall p, In p (dg_params g) -> exists k n name s, reaches h root k /\ nth_error h' k = Some n /\
     In (name, s) (nd_setters n) /\
     (p = pname n name \/ exists c, st_type s = SConst /\ p = const_name c (render (st_const s)))).
Proof.
  intros fuel h h' root g EH DN H. destruct (dep_facts _ _ _ _ _ EH DN H) as (E & F1 & F2 & F3 & F4). split.
  - intros k n name s HR EN HI. destruct (F4 k HR) as (n' & N1 & N2 & N3). assert (n' = n) by congruence. subst.
    apply (N2 (name, s) HI).
  - intros p Hp. destruct (F3 p Hp) as (k & HR & [(n & name & s & N1 & N2 & N3)|(n & name & s & c & N1 & N2 & N3 & N4)]);
      exists k, n, name, s; sp; auto. right. exists c. auto.
Qed.
Theorem C62_edges_complete : forall fuel (h h' : nheap A) root g k,
  start_heap fuel h root = Ok h' -> distinct_names h h' root ->
  build_dependency_graph render fuel h root = Ok g -> reaches h root k ->
  (forall a b, link_edge h' k a b -> has_edge g a b) /\
  (forall a b, output_edge h' k a b -> has_edge g a b) /\
  (forall c0 a0 b, constant_edge h' k c0 a0 b -> exists c a, constant_edge h' k c a b /\ has_edge g a b).
Proof.
  intros fuel h h' root g k EH DN H HR. destruct (dep_facts _ _ _ _ _ EH DN H) as (E & F1 & F2 & F3 & F4).
  destruct (F4 k HR) as (n & N1 & N2 & N3).
  assert (HE : forall a b, In (a, b) E -> has_edge g a b).
  { intros a b Hab. destruct F1 as [W1 W2 W3 W4]. assert (Q := W4 _ _ Hab). exists (sources E b).
    split.
    - rewrite W2. destruct Q as [_ Q]. apply smem_In in Q. now rewrite Q.
    - unfold sources. apply in_map_iff. exists (a, b). split; auto. apply filter_In. split; auto.
      simpl. apply String.eqb_refl. }
  sp.
  - intros a b (n' & name & s & j & d & X1 & X2 & X3 & X4 & X5 & X6 & X7).
    assert (n' = n) by congruence. subst. destruct (N2 (name, s) X2) as (_ & P2 & _).
    destruct (P2 j X4 X5) as (d' & D1 & D2). assert (d' = d) by congruence. subst. apply HE. exact D2.
  - intros a b (n' & name & s & x & X1 & X2 & X3 & X4 & X5 & X6 & X7).
    assert (n' = n) by congruence. subst. apply HE. exact (N3 X2 (name, s) X3 X4 x X5).
  - intros c0 a0 b (n' & name & s & X1 & X2 & X3 & X4 & X5 & X6).
    assert (n' = n) by congruence. subst. destruct (N2 (name, s) X2) as (_ & _ & P3).
    destruct (P3 X4 X5) as (c & Hc). exists c, (const_name c (render (st_const s))). split.
    + exists n, name, s. sp; auto.
    + apply HE. exact Hc.
Qed.
Theorem C62_edges_sound : forall fuel (h h' : nheap A) root g a b,
  start_heap fuel h root = Ok h' -> distinct_names h h' root ->
  build_dependency_graph render fuel h root = Ok g -> has_edge g a b ->
  exists k, reaches h root k /\
    (link_edge h' k a b \/ output_edge h' k a b \/ exists c, constant_edge h' k c a b).
Proof.
  intros fuel h h' root g a b EH DN H (l & L1 & L2).
  destruct (dep_facts _ _ _ _ _ EH DN H) as (E & [W1 W2 W3 W4] & F2 & F3 & F4).
  rewrite W2 in L1. destruct (smem b (dg_params g)); inversion L1; subst. unfold sources in L2.
  apply in_map_iff in L2. destruct L2 as ([x y] & Q1 & Q2). simpl in Q1; subst. apply filter_In in Q2.
  destruct Q2 as [Q2 Q3]. simpl in Q3. apply String.eqb_eq in Q3; subst.
  destruct (F2 _ _ Q2) as (k & K1 & n & name & s & N1 & N2 & N3 & N4). exists k. split; auto.
  destruct N4 as [(j & d & J1 & J2 & J3 & J4)|[(T1 & T2 & c & T3)|(T1 & T2 & x & T3 & T4)]].
  - left. exists n, name, s, j, d. sp; auto.
  - right; right. exists c, n, name, s. sp; auto.
  - right; left. exists n, name, s, x. sp; auto.
Qed.
End C62.

Definition ex_render (v : option (value Z)) : string := "v".
Definition ex_deps := Eval vm_compute in build_dependency_graph ex_render 5 ex_heap 0.
Lemma ex_deps_eq : build_dependency_graph ex_render 5 ex_heap 0 = ex_deps.
Proof. vm_compute. reflexivity. Qed.
Example C62_applies : exists h' g,
  start_heap 5 ex_heap 0 = Ok h' /\ distinct_names ex_heap h' 0 /\
  build_dependency_graph ex_render 5 ex_heap 0 = Ok g /\
  has_edge g "base.z" "Src_0.x" /\ has_edge g "FunctionNode:f_2.a" "FunctionNode:f_2.hi" /\
  has_edge g "FunctionNode:f_2.hi" "Src_0.y" /\ has_edge g "const_0=v" "base.z".
Proof.
  do 2 eexists. split; [reflexivity|]. split; [|split; [rewrite ex_deps_eq; reflexivity|]].
  - intros k1 k2 n1 n2 _ _ E1 E2.
    destruct k1 as [|[|[|k1]]]; [| | |destruct k1; discriminate];
    (destruct k2 as [|[|[|k2]]]; [| | |destruct k2; discriminate]);
    inversion E1; inversion E2; subst; simpl; auto; discriminate.
  - repeat split; eexists; (split; [reflexivity|simpl; auto]).
Qed.
(** A parameter linked to another parameter of its own node has no edge. *)
Theorem C62_self_links_refuted : exists (h h' : nheap Z) g n s,
  start_heap 5 h 0 = Ok h' /\ distinct_names h h' 0 /\ build_dependency_graph ex_render 5 h 0 = Ok g /\
  nth_error h' 0 = Some n /\ In ("y", s) (nd_setters n) /\ st_dep s = Some 0 /\ st_src s = "x" /\
  ~ has_edge g (pname n "x") (pname n "y").
Proof.
  exists [ex_node None "Src" false [("x", as_constant (Atom 5%Z)); ("y", as_parameter 0 "x")] [] []].
  do 4 eexists. split; [reflexivity|]. split; [|split; [reflexivity|]].
  - intros k1 k2 n1 n2 _ _ E1 E2 _. destruct k1 as [|[|k1]]; try discriminate. destruct k2 as [|[|k2]]; try discriminate. auto.
  - split; [reflexivity|]. split; [right; left; reflexivity|]. split; [reflexivity|]. split; [reflexivity|].
    intros (l & L1 & L2). vm_compute in L1. inversion L1; subst. destruct L2.
Qed.
Print Assumptions C62_parameters_listed.
Print Assumptions C62_edges_complete.
Print Assumptions C62_edges_sound.
Print Assumptions C62_self_links_refuted.

(** ** C63 *)
(** The nodes the PyTree walks over: through parameters that are not gradient-enabled. *)
Definition follows {A} (h : nheap A) (i j : nat) : Prop :=
  exists n name s, nth_error h i = Some n /\ In (name, s) (nd_setters n) /\ st_grad s = false /\ st_dep s = Some j.
Definition walks {A} (h : nheap A) : nat -> nat -> Prop := clos_refl_trans nat (follows h).
Definition walk_names {A} (h : nheap A) (root : nat) : Prop :=
  forall k1 k2 n1 n2, walks h root k1 -> walks h root k2 ->
    nth_error h k1 = Some n1 -> nth_error h k2 = Some n2 -> nd_str n1 = nd_str n2 -> k1 = k2.

Lemma item_reads : forall A (g : gs A) nd name v, wf g -> gs_item g nd name = Ok v -> reads g nd name v.
Proof. intros. unfold reads. apply reads_look; [now apply wf_wk|]. now apply gs_item_look. Qed.

Theorem C63_only_gradient_values : forall A fuel (h : nheap A) (g : gs A) root t,
  (forall k n, nth_error h k = Some n -> NoDup (map fst (nd_setters n))) -> wf g ->
  pytree fuel h g [] root = Ok t ->
  forall nd d, dget nd t = Some d ->
    exists k n, walks h root k /\ nth_error h k = Some n /\ nd_str n = nd /\
      forall name v, dget name d = Some v ->
        exists s, In (name, s) (nd_setters n) /\ st_grad s = true /\ reads g nd name v.
Proof.
  intros A fuel h g root t HN WG H nd d HD.
  destruct (tree_spec fuel h g [] root t HN H) as (T1 & T2 & T3).
  assert (HM : dmem nd t = true) by (unfold dmem; now rewrite HD).
  destruct (T3 nd HM) as [Q|(k & n & K1 & K2 & K3 & (n' & d' & D1 & D2 & D3 & D4 & D5) & K5)]; [discriminate|].
  assert (n' = n) by congruence. subst. assert (d' = d) by congruence. subst.
  exists k, n. sp; auto. intros name v Hv. destruct (D4 _ _ Hv) as (s & S1 & S2 & S3). exists s. sp; auto.
  now apply item_reads.
Qed.
Theorem C63_all_gradient_values : forall A fuel (h : nheap A) (g : gs A) root t,
  (forall k n, nth_error h k = Some n -> NoDup (map fst (nd_setters n))) -> wf g -> walk_names h root ->
  pytree fuel h g [] root = Ok t ->
  forall k n name s, walks h root k -> nth_error h k = Some n -> In (name, s) (nd_setters n) -> st_grad s = true ->
    exists d v, dget (nd_str n) t = Some d /\ dget name d = Some v /\ reads g (nd_str n) name v.
Proof.
  intros A fuel h g root t HN WG WN H k n name s HR EN HI HG.
  destruct (tree_spec fuel h g [] root t HN H) as (T1 & T2 & T3).
  assert (V : forall k, walks h root k -> tvisited h t k ->
     tree_done h g k t /\ forall j, tdep h k j -> tvisited h t j).
  { intros k0 HR0 (d & V1 & V2). destruct (T3 _ V2) as [Q|(k' & n' & K1 & K2 & K3 & K4 & K5)]; [discriminate|].
    assert (k' = k0) by (eapply WN; eauto). subst. auto. }
  assert (ALL : forall a b, clos_refl_trans_1n nat (tdep h) a b -> walks h root a -> tvisited h t a -> tvisited h t b).
  { intros a b Hab. induction Hab as [|a b c HS HT IHt]; auto. intros HRa HV. apply IHt.
    - eapply rt_trans; [exact HRa|]. apply rt_step. exact HS.
    - eapply V; eauto. }
  destruct (V k HR) as ((n' & d & D1 & D2 & D3 & D4 & D5) & _).
  { eapply ALL; [apply clos_rt_rt1n; exact HR|apply rt_refl|exact T2]. }
  assert (n' = n) by congruence. subst. destruct (D5 _ _ HI HG) as (v & V1 & V2).
  exists d, v. sp; auto. now apply item_reads.
Qed.
(** Positions are required. *)
Theorem C63_needs_positions : forall A fuel (h : nheap A) g p root n,
  nth_error h root = Some n -> nd_pos n = None -> pytree (S fuel) h g p root = Err ValueError.
Proof. intros A fuel h g p root n E1 E2. cbn [pytree]. now rewrite E1, E2. Qed.
Example C63_applies : exists h' m t,
  sample_parameters ex_func 5 ex_heap 0 ex_given 2 0 = Ok (h', m) /\
  pytree 5 h' (sm_gs m) [] 0 = Ok t /\ walk_names h' 0 /\
  t = [("Src_0", [("c", Arr [Atom 7%Z; Atom 8%Z])]); ("base", [("z", Arr [Atom 9%Z; Atom 9%Z])]);
       ("FunctionNode:f_2", [("b", Arr [Atom 1%Z; Atom 1%Z])])].
Proof.
  do 3 eexists. split; [rewrite ex_run_eq; reflexivity|]. split; [reflexivity|]. split; [|reflexivity].
  intros k1 k2 n1 n2 _ _ E1 E2.
  destruct k1 as [|[|[|k1]]]; [| | |destruct k1; discriminate];
  (destruct k2 as [|[|[|k2]]]; [| | |destruct k2; discriminate]);
  inversion E1; inversion E2; subst; simpl; auto; discriminate.
Qed.
(** A linked parameter whose gradient was enabled hides what it depends on: the walk stops
    there, so a gradient-enabled constant upstream is missing from the tree. *)
Theorem C63_enabled_link_hides_upstream_refuted : exists (h h' : nheap Z) m t n s,
  sample_parameters ex_func 5 h 0 GNone 1 0 = Ok (h', m) /\ pytree 5 h' (sm_gs m) [] 0 = Ok t /\
  reaches h 0 1 /\ nth_error h' 1 = Some n /\ In ("z", s) (nd_setters n) /\ st_grad s = true /\
  dget (nd_str n) t = None.
Proof.
  exists [ex_node None "Src" false [("x", mkSet SModel (Some 1) "z" None true)] [] [];
          ex_node (Some "base") "Node" false [("z", as_constant (Atom 9%Z))] [] []].
  do 5 eexists. split; [vm_compute; reflexivity|]. split; [vm_compute; reflexivity|]. split.
  - apply rt_step. do 3 eexists. split; [reflexivity|]. split; [left; reflexivity|]. split; [reflexivity|discriminate].
  - split; [reflexivity|]. split; [left; reflexivity|]. split; reflexivity.
Qed.
Print Assumptions C63_only_gradient_values.
Print Assumptions C63_all_gradient_values.
Print Assumptions C63_needs_positions.
Print Assumptions C63_enabled_link_hides_upstream_refuted.
