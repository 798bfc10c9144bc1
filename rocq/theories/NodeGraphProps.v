(** Properties C17-C22: graph positions and sampling
    (src/lightcurvelynx/base_models.py 239-262, 540-653, 861-971). *)
From Coq Require Import String Ascii List Bool Arith ZArith Lia Relations.
From Verif Require Import Base BaseFacts Numerals GraphStateModel GraphStateProofs GraphStateProofs2
  GraphStateProofs4 GraphStateProps NodeGraphModel NodeGraphProofs NodeSampleProofs NodeSampleProofs2 NodeSampleProofs3.
Import ListNotations.
Open Scope string_scope.
Open Scope list_scope.
Open Scope nat_scope.
#[local] Hint Resolve wf_wk reachable_wf : core.

(** ** Specification vocabulary *)
(** A parameter of node [i] has its value from node [j]. *)
Definition depends {A} (h : nheap A) (i j : nat) : Prop :=
  exists n name s, nth_error h i = Some n /\ In (name, s) (nd_setters n) /\ st_dep s = Some j /\ j <> i.
Definition reaches {A} (h : nheap A) : nat -> nat -> Prop := clos_refl_trans nat (depends h).
(** Every node object that is referred to exists. *)
Definition no_dangling {A} (h : nheap A) : Prop := forall i j, depends h i j -> j < length h.
(** Python-level well-formedness: parameter names of a node are the keys of a dict, and the
    declared outputs of a function node are distinct computed parameters of that node. *)
Definition well_formed {A} (h : nheap A) : Prop := forall k n, nth_error h k = Some n ->
  NoDup (map fst (nd_setters n)) /\ NoDup (nd_outs n) /\
  forall o, In o (nd_outs n) -> exists s, In (o, s) (nd_setters n) /\ st_type s = SCompute.
Definition acyclic {A} (h : nheap A) : Prop :=
  exists rank : nat -> nat, forall i j, depends h i j -> rank j < rank i.
(** Same node up to position and name. *)
Definition same_recipe {A} (n n' : node A) : Prop :=
  nd_setters n' = nd_setters n /\ nd_label n' = nd_label n /\ nd_class n' = nd_class n /\
  nd_fn n' = nd_fn n /\ nd_func n' = nd_func n /\ nd_args n' = nd_args n /\ nd_outs n' = nd_outs n.

Lemma depends_ndeps : forall A (h : nheap A) i j, depends h i j <-> In j (ndeps h i).
Proof.
  intros A h i j. unfold depends, ndeps. split.
  - intros (n & name & s & H1 & H2 & H3 & H4). rewrite H1. unfold sdeps. apply in_flat_map. exists s.
    split; [apply in_map_iff; exists (name, s); auto|]. rewrite H3. apply Nat.eqb_neq in H4. rewrite H4. now left.
  - destruct (nth_error h i) as [n|]; [|simpl; tauto]. unfold sdeps. intros H. apply in_flat_map in H.
    destruct H as (s & H1 & H2). apply in_map_iff in H1. destruct H1 as ([name s'] & E & H1). simpl in E; subst.
    destruct (st_dep s) as [k|] eqn:ED; [|simpl in H2; tauto].
    destruct (k =? i) eqn:EK; simpl in H2; [tauto|]. destruct H2 as [->|[]]. apply Nat.eqb_neq in EK.
    exists n, name, s. auto.
Qed.
Lemma reaches_reach : forall A (h : nheap A) i j, reaches h i j <-> reach h i j.
Proof.
  intros A h i j. split; intros H; induction H.
  - apply rt_step. now apply depends_ndeps.
  - apply rt_refl.
  - eapply rt_trans; eauto.
  - apply rt_step. now apply depends_ndeps.
  - apply rt_refl.
  - eapply rt_trans; eauto.
Qed.

(** ** C17 *)
Theorem C17_positions : forall A fuel (h : nheap A) root h' seen,
  positions fuel h [] root = Ok (h', seen) ->
  length h' = length h /\
  (* every reachable node has a position below the number of reachable nodes *)
  NoDup seen /\ (forall k, In k seen <-> reaches h root k) /\
  (forall k, reaches h root k -> exists n n' p, nth_error h k = Some n /\ nth_error h' k = Some n' /\
     same_recipe n n' /\ nd_pos n' = Some p /\ p < length seen) /\
  (* distinct *)
  (forall k1 k2 n1 n2 p, reaches h root k1 -> reaches h root k2 ->
     nth_error h' k1 = Some n1 -> nth_error h' k2 = Some n2 ->
     nd_pos n1 = Some p -> nd_pos n2 = Some p -> k1 = k2) /\
  (* without gaps *)
  (forall p, p < length seen -> exists k n', reaches h root k /\ nth_error h' k = Some n' /\ nd_pos n' = Some p) /\
  (* starting at the root *)
  (exists n', nth_error h' root = Some n' /\ nd_pos n' = Some 0) /\
  (* and no other node changes *)
  (forall k, ~ reaches h root k -> nth_error h' k = nth_error h k).
Proof.
  intros A fuel h root h' seen H. assert (HB : forall k, In k seen -> k < length h).
  { destruct (positions_spec fuel h [] root h' seen (NoDup_nil _) H) as (new & E & _ & _ & _ & HR & _ & _).
    simpl in E. subst new. intros k Hk. apply HR, Hk. }
  destruct (positions_root _ _ _ _ _ H) as (ND & HR & HN & HH).
  assert (HR' : forall k, In k seen <-> reaches h root k).
  { intros k. rewrite HR. symmetry. apply reaches_reach. }
  assert (POS : forall k, reaches h root k -> exists n p, nth_error h k = Some n /\ nth_error seen p = Some k /\
     nth_error h' k = Some (renamed (with_pos n (Some p)))).
  { intros k Hk. apply HR' in Hk. assert (B := HB _ Hk). apply nth_error_Some in B.
    destruct (nth_error h k) as [n|] eqn:EN; [|congruence].
    destruct (idx k seen) as [p|] eqn:EI; [|apply idx_In in Hk; congruence].
    exists n, p. split; auto. split; [now apply idx_nth|]. rewrite HN, EI, EN. reflexivity. }
  split; [exact (numbered_length _ _ _ _ HN)|].
  split; auto. split; [exact HR'|]. sp.
  - intros k Hk. destruct (POS k Hk) as (n & p & E1 & E2 & E3). exists n, (renamed (with_pos n (Some p))), p.
    split; auto. split; auto. split; [repeat split|]. split; auto. apply nth_error_Some. congruence.
  - intros k1 k2 n1 n2 p R1 R2 E1 E2 P1 P2. destruct (POS _ R1) as (m1 & q1 & A1 & A2 & A3).
    destruct (POS _ R2) as (m2 & q2 & B1 & B2 & B3). rewrite A3 in E1; inversion E1; subst.
    rewrite B3 in E2; inversion E2; subst. simpl in *. congruence.
  - intros p Hp. apply nth_error_Some in Hp. destruct (nth_error seen p) as [k|] eqn:E; [|congruence].
    assert (Hk : reaches h root k) by (apply HR'; eapply nth_error_In; eauto).
    destruct (POS _ Hk) as (n & q & E1 & E2 & E3). exists k, (renamed (with_pos n (Some q))). split; auto.
    split; auto. simpl. f_equal. eapply NoDup_nth_error; eauto; [|congruence]. apply nth_error_Some. congruence.
  - destruct seen as [|r seen]; [discriminate|]. simpl in HH; inversion HH; subst.
    destruct (POS root) as (n & q & E1 & E2 & E3); [apply HR'; now left|].
    exists (renamed (with_pos n (Some q))). split; auto. simpl. f_equal.
    assert (q < length (root :: seen)) by (apply nth_error_Some; congruence).
    assert (Z0 : 0 < length (root :: seen)) by (simpl; lia).
    symmetry. apply (proj1 (NoDup_nth_error (root :: seen)) ND 0 q Z0). auto.
  - intros k Hk. rewrite HN. rewrite idx_None; auto. now rewrite HR'.
Qed.
(** Termination on every graph, also a cyclic one, within a recursion depth of the number of
    nodes. *)
Theorem C17_terminates : forall A (h : nheap A) root fuel, no_dangling h -> root < length h ->
  length h < fuel -> exists h' seen, positions fuel h [] root = Ok (h', seen).
Proof.
  intros A h root fuel HC HR HF.
  destruct (positions_total fuel h [] root) as [[h' seen] E]; auto.
  - intros i j Hj. apply (HC i j). now apply depends_ndeps.
  - constructor.
  - simpl; tauto.
  - simpl; lia.
  - eauto.
Qed.
(** A cyclic example: node 0 depends on 1 and 1 on 0; node 2 is unreachable. *)
Definition ex_node (label : option string) (cls : string) (fn : bool) (d : dict (setter Z)) args outs : node Z :=
  mkNode label cls fn (if fn then Some "f" else None) d None "" args outs [].
Definition ex_cyc : nheap Z :=
  [ex_node None "Src" false [("x", as_constant (Atom 5%Z)); ("y", as_parameter 1 "y")] [] [];
   ex_node None "Src" false [("y", as_parameter 0 "x")] [] [];
   ex_node None "Src" false [("y", as_parameter 0 "x")] [] []].
Example C17_applies : no_dangling ex_cyc /\
  exists h', positions 4 ex_cyc [] 0 = Ok (h', [0; 1]) /\
  option_map (fun n : node Z => nd_str n) (nth_error h' 1) = Some "Src_1".
Proof.
  split.
  - intros i j H. apply depends_ndeps in H. destruct i as [|[|[|[|i]]]]; simpl in H;
      repeat (destruct H as [<-|H]; [simpl; lia|]); destruct H.
  - eexists. split; reflexivity.
Qed.
Print Assumptions C17_positions.
Print Assumptions C17_terminates.

(** ** The state at the start and at the end of a run *)
Lemma start_heap_spec : forall A fuel (h : nheap A) root h', start_heap fuel h root = Ok h' ->
  length h' = length h /\
  forall k, nth_error h' k = nth_error h k \/
    exists n n', nth_error h k = Some n /\ nth_error h' k = Some n' /\ same_recipe n n'.
Proof.
  intros A fuel h root h' H. unfold start_heap in H.
  destruct (nth_error h root) as [n|]; [|discriminate]. destruct (nd_pos n).
  - inversion H; subst. split; [reflexivity|]. intros k; now left.
  - destruct (positions fuel h [] root) as [[h2 seen]|] eqn:E; [|discriminate]. inversion H; subst.
    destruct (positions_root _ _ _ _ _ E) as (ND & HR & HN & HH).
    split; [exact (numbered_length _ _ _ _ HN)|]. intros k. assert (HK := HN k).
    destruct (idx k seen) as [p|]; auto. destruct (nth_error h k) as [m|]; simpl in HK; auto.
    right. exists m, (renamed (with_pos m (Some p))). repeat split. exact HK.
Qed.
Lemma start_heap_deps : forall A fuel (h : nheap A) root h' i j, start_heap fuel h root = Ok h' ->
  depends h' i j <-> depends h i j.
Proof.
  intros A fuel h root h' i j H. destruct (start_heap_spec _ _ _ _ _ H) as [_ S]. unfold depends.
  destruct (S i) as [E|(n & n' & E1 & E2 & E3)].
  - rewrite E. tauto.
  - rewrite E1, E2. destruct E3 as (E3 & _). split; intros (x & name & s & X1 & X2 & X3 & X4); inversion X1; subst.
    + exists n, name, s. rewrite <- E3. auto.
    + exists n', name, s. rewrite E3. auto.
Qed.
Lemma start_heap_wf : forall A fuel (h : nheap A) root h', start_heap fuel h root = Ok h' ->
  well_formed h -> well_formed h'.
Proof.
  intros A fuel h root h' H W k n E. destruct (start_heap_spec _ _ _ _ _ H) as [_ S].
  destruct (S k) as [Q|(m & n' & E1 & E2 & E3)].
  - rewrite Q in E. apply (W _ _ E).
  - rewrite E2 in E; inversion E; subst. destruct E3 as (-> & _ & _ & _ & _ & _ & ->). apply (W _ _ E1).
Qed.

(** What was passed as given_args, as (node, parameter, value). *)
Definition given_value {A} (g : given A) (nd name : string) (v : value A) : Prop :=
  match g with
  | GNone => False
  | GDict d => exists params, In (nd, params) d /\ In (name, v) params
  | GState s => reads s nd name v
  end.
(** A Python dict of dicts, or a reachable GraphState. *)
Definition valid_given {A} (g : given A) : Prop :=
  match g with
  | GNone => True
  | GDict d => NoDup (map fst d) /\ forall nd params, In (nd, params) d -> NoDup (map fst params)
  | GState s => reachable s
  end.

Lemma nodup_app : forall B (a b : list B), NoDup a -> NoDup b -> (forall x, In x a -> ~ In x b) ->
  NoDup (a ++ b).
Proof.
  induction a as [|x a IH]; simpl; intros b HA HB HD; auto. inversion HA; subst. constructor.
  - rewrite in_app_iff. intros [Q|Q]; auto. exact (HD x (or_introl eq_refl) Q).
  - apply IH; auto.
Qed.
Lemma entries_nodup : forall A (d : dict (dict (value A))), NoDup (map fst d) ->
  (forall nd params, In (nd, params) d -> NoDup (map fst params)) -> NoDup (map fst (entries d)).
Proof.
  induction d as [|[nd params] d IH]; simpl; intros ND HP; [constructor|].
  rewrite map_app. inversion ND; subst. apply nodup_app.
  - rewrite map_map. simpl. specialize (HP nd params (or_introl eq_refl)).
    clear -HP. induction params as [|[k v] ps IH]; simpl in *; [constructor|]. inversion HP; subst.
    constructor; auto. rewrite in_map_iff. intros ([k' v'] & E & HI). inversion E; subst.
    apply H1. apply in_map_iff. exists (k, v'). auto.
  - apply IH; eauto.
  - intros [a b] HA HB. rewrite map_map in HA. apply in_map_iff in HA. destruct HA as (x & E & _).
    inversion E; subst. apply H1. apply in_map_iff in HB. destruct HB as ([[a' b'] v] & E2 & HB).
    simpl in E2; inversion E2; subst. unfold entries in HB. apply in_flat_map in HB.
    destruct HB as ([a2 ps] & HC & HD). simpl in HD. apply in_map_iff in HD. destruct HD as (y & E3 & _).
    inversion E3; subst. apply in_map_iff. exists (a, ps). auto.
Qed.

Lemma in_entries : forall A (d : dict (dict (value A))) nd name v,
  In (nd, name, v) (entries d) <-> exists params, In (nd, params) d /\ In (name, v) params.
Proof.
  intros. unfold entries. rewrite in_flat_map. split.
  - intros ([nd' ps] & H1 & H2). simpl in H2. apply in_map_iff in H2. destruct H2 as ([k u] & E & H2).
    simpl in E. inversion E; subst. eauto.
  - intros (ps & H1 & H2). exists (nd, ps). split; auto. simpl. apply in_map_iff. exists (name, v). auto.
Qed.
Lemma start_state_spec : forall A (g : given A) num s, valid_given g -> start_state g num = Ok s ->
  wf s /\ gs_n s = Z.to_nat num /\ 1 <= gs_n s /\
  (forall nd name, fixed_in s nd name <-> exists v, given_value g nd name v) /\
  (forall nd name v, given_value g nd name v -> exists w, expands (gs_n s) v w /\ look s nd name = Some w) /\
  (forall nd name v, look s nd name = Some v -> is_fixed s nd name = true).
Proof.
  intros A g num s V H. unfold start_state, gs_new in H. destruct (num <? 1)%Z eqn:EN; [discriminate|].
  apply Z.ltb_ge in EN. assert (HN : 1 <= Z.to_nat num) by lia.
  assert (WF := @wf_fresh A _ HN).
  assert (G : forall (l : list (string * string * value A)) s', NoDup (map fst l) ->
     gs_set_all (gs_fresh (Z.to_nat num)) l true = (s', None) ->
     wf s' /\ gs_n s' = Z.to_nat num /\ 1 <= gs_n s' /\
     (forall nd name, fixed_in s' nd name <-> exists v, In (nd, name, v) l) /\
     (forall nd name v, In (nd, name, v) l -> exists w, expands (gs_n s') v w /\ look s' nd name = Some w) /\
     (forall nd name v, look s' nd name = Some v -> is_fixed s' nd name = true)).
  { intros l s' ND HS. destruct (set_all_spec _ _ _ _ WF HS ND) as (W' & N' & D' & L' & F' & S').
    assert (F2 : forall nd name, is_fixed s' nd name = true <-> exists v, In (nd, name, v) l).
    { intros nd name. rewrite F', fresh_fixed. simpl. rewrite existsb_exists. split.
      - intros ([[a b] v] & HI & E). simpl in E. apply eqb2 in E. destruct E; subst. eauto.
      - intros (v & HI). exists (nd, name, v). split; auto. simpl. now rewrite !String.eqb_refl. }
    sp; auto.
    - rewrite N'; auto.
    - intros nd name. unfold fixed_in. rewrite fixed_iff. apply F2.
    - intros nd name v HI. destruct (S' _ HI) as [Q|[w Q]]; [simpl in Q; rewrite fresh_fixed in Q; discriminate|].
      simpl in Q. exists w. rewrite N'. split.
      + unfold expands. apply store_value_cases; auto.
      + rewrite L', (find_key _ _ _ _ ND HI), fresh_fixed. simpl snd. simpl gs_n. now rewrite Q.
    - intros nd name v HL. apply F2. rewrite L' in HL. destruct (find _ l) as [[[a b] u]|] eqn:EF.
      + apply find_some in EF. destruct EF as [HI E]. simpl in E. apply eqb2 in E. destruct E; subst. eauto.
      + rewrite fresh_look in HL. discriminate. }
  destruct g as [|d|t].
  - inversion H; subst. simpl. sp; auto.
    + intros nd name. unfold fixed_in. simpl. split; [intros (l & Q & _); discriminate|intros [v []]].
    + intros nd name v [].
    + intros nd name v Q. rewrite fresh_look in Q. discriminate.
  - destruct V as [V1 V2]. unfold gs_update_dict in H.
    destruct (gs_set_all _ (entries d) true) as [s' [e|]] eqn:ES; inversion H; subst.
    destruct (G _ _ (entries_nodup _ _ V1 V2) ES) as (G1 & G2 & G3 & G4 & G5 & G6). sp; auto.
    + intros nd name. rewrite G4. split; intros [v Hv]; exists v; [now apply in_entries|now apply in_entries in Hv].
    + intros nd name v Hv. apply G5. now apply in_entries.
  - simpl in V. assert (Wt := reachable_wf _ V). unfold gs_update in H.
    destruct (negb _ && negb _); [discriminate|].
    destruct (gs_set_all _ (entries (gs_states t)) true) as [s' [e|]] eqn:ES; inversion H; subst.
    assert (ND : NoDup (map fst (entries (gs_states t)))).
    { apply entries_nodup; [exact (wf_nodup _ Wt)|]. intros nd ps HI.
      apply (wf_node _ Wt nd). apply In_dget; auto. exact (wf_nodup _ Wt). }
    destruct (G _ _ ND ES) as (G1 & G2 & G3 & G4 & G5 & G6).
    assert (RE : forall nd name v, given_value (GState t) nd name v <-> In (nd, name, v) (entries (gs_states t))).
    { intros. simpl. unfold reads. rewrite reads_look by auto. apply look_In. auto. }
    sp; auto.
    + intros nd name. rewrite G4. split; intros [v Hv]; exists v; apply RE; auto.
    + intros nd name v Hv. apply G5. apply RE; auto.
Qed.

Lemma run_facts : forall A W (func : W -> nat -> dict (value A) -> W * result (value A))
    fuel h root g num w h' m,
  well_formed h -> valid_given g -> sample_parameters func fuel h root g num w = Ok (h', m) ->
  exists s, start_heap fuel h root = Ok h' /\ start_state g num = Ok s /\
    sample_helper func fuel h' (mkSM s [] w []) root = Ok m /\
    wf (sm_gs m) /\ grows s (sm_gs m) /\ seen_ok h' (sm_seen m) /\
    (forall k, In k (ids (sm_seen m)) <-> reaches h root k) /\
    (forall k, reaches h root k -> node_ok func h' (sm_gs m) k) /\
    NoDup (sm_tr m) /\ (forall e, In e (sm_tr m) -> reaches h root (ev_node e)) /\
    comp_ordered h' (sm_tr m) /\ (forall k, reaches h root k -> fully h' k (sm_tr m)).
Proof.
  intros A W func fuel h root g num w h' m WF VG H. unfold sample_parameters in H.
  destruct (start_heap fuel h root) as [h1|] eqn:EH; [|discriminate].
  destruct (start_state g num) as [s|] eqn:ES; [|discriminate].
  destruct (sample_helper func fuel h1 (mkSM s [] w []) root) as [m1|] eqn:EM; inversion H; subst.
  exists s. destruct (start_state_spec _ _ _ _ VG ES) as (S1 & S2 & S3 & S4 & S5 & S6).
  assert (WF' := start_heap_wf _ _ _ _ _ EH WF).
  assert (GN : forall k n, nth_error h' k = Some n -> good_node n) by (intros k n E; apply (WF' _ _ E)).
  assert (SO : seen_ok h' (sm_seen (mkSM s [] w []))) by (split; [constructor|simpl; tauto]).
  assert (OW : owned s []) by (intros nd vr v Hv; left; eauto).
  destruct (value_spec func fuel h' (mkSM s [] w []) root m GN SO S1 OW EM)
    as (new & V1 & V2 & V3 & V4 & V5 & V6 & V7).
  simpl in V1, V4. rewrite V1 in *.
  assert (TO : tr_ok (mkSM s [] w [])) by (split; [constructor|simpl; tauto]).
  destruct (trace_spec func fuel h' (mkSM s [] w []) root m) as ((nw & t & T1 & T2 & T3 & T4 & T5 & T6) & T7); auto.
  { intros k n E. apply (WF' _ _ E). }
  simpl in T1, T2, T6. rewrite V1 in T1. subst nw.
  assert (CO0 : comp_ordered h' (sm_tr (mkSM s [] w []))).
  { intros t1 k t2 n name st E. simpl in E. destruct t1; discriminate. }
  destruct (done_spec func fuel h' (mkSM s [] w []) root m CO0 EM) as (D1 & D2 & D3).
  rewrite V1 in T6, T7, D3.
  assert (RE : forall a b, reaches h a b <-> reach h' a b).
  { intros a b. rewrite <- reaches_reach. split; intros Q; induction Q.
    - apply rt_step. now apply (start_heap_deps _ _ _ _ _ x y EH).
    - apply rt_refl.
    - eapply rt_trans; eauto.
    - apply rt_step. now apply (start_heap_deps _ _ _ _ _ x y EH).
    - apply rt_refl.
    - eapply rt_trans; eauto. }
  assert (ID : forall k, In k (ids new) <-> reaches h root k).
  { intros k. rewrite RE. split.
    - intros Hk. destruct (D3 k Hk) as [[]|[Q _]]; auto.
    - intros Q. apply clos_rt_rt1n in Q.
      assert (GG : forall a b, clos_refl_trans_1n nat (fun i j => In j (ndeps h' i)) a b -> In a (ids new) -> In b (ids new)).
      { intros a b Hab. induction Hab; auto. intros Ha. apply IHHab. eauto. }
      eapply GG; eauto. }
  sp; auto.
  - intros k Hk. apply V7. now apply ID.
  - apply T4.
  - intros e He. destruct T4 as [_ T4]. apply T4 in He. rewrite V1 in He. now apply ID.
  - intros k Hk. apply ID in Hk. destruct (D3 k Hk) as [[]|[_ Q]]; auto.
Qed.

(** ** C18 *)
(** [sm_tr] is the sequence of what happened: nodes entered and left, parameters assigned,
    compute functions called.  Nothing happens twice, everything happens to reachable nodes
    only, every reachable node is entered and left, each of its parameters is assigned, or
    computed by a call made after all its other parameters were assigned. *)
Theorem C18_sampled_exactly_once : forall A W (func : W -> nat -> dict (value A) -> W * result (value A))
    fuel h root g num w h' m,
  well_formed h -> valid_given g -> sample_parameters func fuel h root g num w = Ok (h', m) ->
  NoDup (sm_tr m) /\
  (forall e, In e (sm_tr m) -> reaches h root (ev_node e)) /\
  (forall k, reaches h root k -> exists n, nth_error h k = Some n /\
     In (EEnter k) (sm_tr m) /\ In (ELeave k) (sm_tr m) /\
     (forall name s, In (name, s) (nd_setters n) -> st_type s <> SCompute -> In (EAssign k name) (sm_tr m)) /\
     (forall name s, In (name, s) (nd_setters n) -> st_type s = SCompute ->
        exists t1 t2, sm_tr m = t1 ++ ECompute k :: t2 /\
          forall nm st, In (nm, st) (nd_setters n) -> st_type st <> SCompute -> In (EAssign k nm) t1)).
Proof.
  intros A W func fuel h root g num w h' m WF VG H.
  destruct (run_facts _ _ _ _ _ _ _ _ _ _ _ WF VG H) as (s & R1 & R2 & R3 & R4 & R5 & R6 & R7 & R8 & R9 & R10 & R11 & R12).
  split; auto. split; auto. intros k Hk. destruct (R12 k Hk) as (n' & F1 & F2 & F3 & F4 & F5).
  assert (SR : exists n, nth_error h k = Some n /\ nd_setters n' = nd_setters n).
  { destruct (start_heap_spec _ _ _ _ _ R1) as [_ S]. destruct (S k) as [E|(n & n2 & E1 & E2 & E3)].
    - exists n'. rewrite <- E. auto.
    - exists n. split; auto. destruct E3 as (E3 & _). congruence. }
  destruct SR as (n & E1 & E2). rewrite E2 in *. exists n. sp; auto.
  intros name st HI HT.
  assert (HX : In (ECompute k) (sm_tr m)).
  { apply F5. apply existsb_exists. exists (name, st). split; auto. unfold is_compute. simpl. now rewrite HT. }
  apply in_split in HX. destruct HX as (t1 & t2 & ET). exists t1, t2. split; auto.
  intros nm st' HI' HT'. eapply R11; eauto. rewrite E2. exact HI'.
Qed.
(** In a graph without cycles, a parameter linked to another node is assigned after that node has
    been completely sampled. *)
Theorem C18_dependencies_first : forall A W (func : W -> nat -> dict (value A) -> W * result (value A))
    fuel h root g num w h' m,
  well_formed h -> valid_given g -> acyclic h -> sample_parameters func fuel h root g num w = Ok (h', m) ->
  forall t1 t2 k name n s j, sm_tr m = t1 ++ EAssign k name :: t2 ->
    nth_error h k = Some n -> In (name, s) (nd_setters n) -> st_dep s = Some j -> j <> k ->
    In (ELeave j) t1.
Proof.
  intros A W func fuel h root g num w h' m WF VG [rank AC] H t1 t2 k name n s j ET EN HI ED NE.
  destruct (run_facts _ _ _ _ _ _ _ _ _ _ _ WF VG H) as (s0 & R1 & R2 & R3 & R4 & R5 & R6 & R7 & R8 & R9 & R10 & R11 & R12).
  assert (WF' := start_heap_wf _ _ _ _ _ R1 WF).
  assert (OR : ordered h' (sm_tr m)).
  { destruct (order_spec func fuel h' rank [] (mkSM s0 [] w []) root m) as (O1 & O2 & O3 & O4); auto.
    - intros x y E. apply (WF' _ _ E).
    - intros a b Hb. apply AC. apply (start_heap_deps _ _ _ _ _ a b R1). now apply depends_ndeps.
    - simpl; tauto.
    - intros x Hx. simpl in Hx. tauto.
    - intros a b c d e f0 g0 E. simpl in E. destruct a; discriminate. }
  destruct (start_heap_spec _ _ _ _ _ R1) as [_ S]. destruct (S k) as [E|(n1 & n2 & E1 & E2 & E3)].
  - eapply OR; eauto. congruence.
  - destruct E3 as (E3 & _). assert (n1 = n) by congruence. subst n1.
    eapply OR; eauto. rewrite E3. exact HI.
Qed.
(** The result of a run, computed. *)
Definition cyc_run := Eval vm_compute in
  sample_parameters (fun (w : unit) _ _ => (w, @Err (value Z) ValueError)) 5 ex_cyc 0 GNone 1 tt.
Lemma cyc_run_eq :
  sample_parameters (fun (w : unit) _ _ => (w, Err ValueError)) 5 ex_cyc 0 GNone 1 tt = cyc_run.
Proof. vm_compute. reflexivity. Qed.
(** With a cycle it can be assigned before: node 1 reads the parameter x of node 0 while node 0
    is still waiting for node 1. *)
Theorem C18_cycle_refuted : exists h' m t1 t2,
  well_formed ex_cyc /\
  sample_parameters (fun (w : unit) _ _ => (w, Err ValueError)) 5 ex_cyc 0 GNone 1 tt = Ok (h', m) /\
  sm_tr m = t1 ++ EAssign 1 "y" :: t2 /\ ~ In (ELeave 0) t1.
Proof.
  do 2 eexists. exists [EEnter 0; EAssign 0 "x"; EEnter 1], [ELeave 1; EAssign 0 "y"; ELeave 0].
  split; [|split; [rewrite cyc_run_eq; reflexivity|split; [reflexivity|simpl; intuition discriminate]]].
  intros k n E. assert (HK : k < length ex_cyc) by (apply nth_error_Some; congruence). simpl in HK.
  destruct k as [|[|[|k]]]; [| | |lia]; inversion E; subst; simpl;
    (split; [repeat constructor; simpl; intuition discriminate|split; [constructor|tauto]]).
Qed.

(** A non-trivial model: a source whose parameter y is the second output of a function node, the
    first argument of which is linked back to a third node shared by both. *)
Definition ex_heap : nheap Z :=
  [ex_node None "Src" false
     [("x", as_parameter 2 "z"); ("y", as_function 1 "hi"); ("c", as_constant (Atom 4%Z))] [] [];
   ex_node None "FunctionNode" true
     [("a", as_parameter 2 "z"); ("b", as_constant (Atom 1%Z));
      ("lo", as_compute_output undefined "lo"); ("hi", as_compute_output undefined "hi")] ["a"; "b"] ["lo"; "hi"];
   ex_node (Some "base") "Node" false [("z", as_constant (Atom 9%Z))] [] []].
Definition ex_func (w : nat) (i : nat) (args : dict (value Z)) : nat * result (value Z) :=
  match args with
  | [(_, a); (_, b)] => (S w, Ok (Arr [b; a]))
  | _ => (w, Err TypeError)
  end.
Example ex_heap_wf : well_formed ex_heap.
Proof.
  intros k n E. assert (HK : k < length ex_heap) by (apply nth_error_Some; congruence). simpl in HK.
  destruct k as [|[|[|k]]]; [| | |lia]; inversion E; subst; simpl;
    (split; [repeat constructor; simpl; intuition discriminate|
     split; [repeat constructor; simpl; intuition discriminate|]]); try tauto.
  intros o [<-|[<-|[]]]; eexists; (split; [eauto 8|]); reflexivity.
Qed.
Example ex_heap_acyclic : acyclic ex_heap.
Proof.
  exists (fun k => 3 - k). intros i j H. apply depends_ndeps in H.
  destruct i as [|[|[|[|i]]]]; simpl in H; repeat (destruct H as [<-|H]; [simpl; lia|]); destruct H.
Qed.
Definition ex_given : given Z := GDict [("Src_0", [("c", Arr [Atom 7%Z; Atom 8%Z])])].
Definition ex_run := Eval vm_compute in sample_parameters ex_func 5 ex_heap 0 ex_given 2 0.
Lemma ex_run_eq : sample_parameters ex_func 5 ex_heap 0 ex_given 2 0 = ex_run.
Proof. vm_compute. reflexivity. Qed.
Example C18_applies : exists h' m,
  sample_parameters ex_func 5 ex_heap 0 ex_given 2 0 = Ok (h', m) /\ valid_given ex_given /\
  sm_tr m = [EEnter 0; EEnter 2; EAssign 2 "z"; ELeave 2; EAssign 0 "x"; EEnter 1; EAssign 1 "a";
             EAssign 1 "b"; ECompute 1; ELeave 1; EAssign 0 "y"; EAssign 0 "c"; ELeave 0] /\
  reads (sm_gs m) "Src_0" "c" (Arr [Atom 7%Z; Atom 8%Z]) /\
  reads (sm_gs m) "Src_0" "y" (Arr [Atom 9%Z; Atom 9%Z]).
Proof.
  do 2 eexists. split; [rewrite ex_run_eq; reflexivity|]. split; [|repeat split].
  simpl. split; [repeat constructor; simpl; tauto|]. intros nd ps [E|[]]. inversion E; subst.
  repeat constructor. simpl; tauto.
Qed.
Print Assumptions C18_sampled_exactly_once.
Print Assumptions C18_dependencies_first.
Print Assumptions C18_cycle_refuted.

(** ** C19 *)
(** [h'] holds the nodes under the names that the returned state uses. *)
Theorem C19_linked_agree : forall A W (func : W -> nat -> dict (value A) -> W * result (value A))
    fuel h root g num w h' m,
  well_formed h -> valid_given g -> sample_parameters func fuel h root g num w = Ok (h', m) ->
  forall k n name s, reaches h root k -> nth_error h' k = Some n -> In (name, s) (nd_setters n) ->
    (~ exists v, given_value g (nd_str n) name v) ->
    gs_n (sm_gs m) = Z.to_nat num /\
    match st_type s with
    | SConst => exists v, st_const s = Some v /\
        reads (sm_gs m) (nd_str n) name (if Z.eqb num 1 then v else Arr (repeat v (Z.to_nat num)))
    | SModel | SFunc => exists j d v, st_dep s = Some j /\ nth_error h' j = Some d /\
        reads (sm_gs m) (nd_str n) name v /\ reads (sm_gs m) (nd_str d) (st_src s) v
    | SCompute => True
    | SUndef => False
    end.
Proof.
  intros A W func fuel h root g num w h' m WF VG H k n name s HR EN HI NG.
  destruct (run_facts _ _ _ _ _ _ _ _ _ _ _ WF VG H) as (s0 & R1 & R2 & R3 & R4 & R5 & R6 & R7 & R8 & R9 & R10 & R11 & R12).
  destruct (start_state_spec _ _ _ _ VG R2) as (S1 & S2 & S3 & S4 & S5 & S6).
  destruct R5 as (G1 & G2 & G3). split; [congruence|].
  destruct (R8 k HR) as (n' & E' & P & C). assert (n' = n) by congruence. subst n'.
  specialize (P _ _ HI). unfold param_ok in P.
  assert (FX : is_fixed (sm_gs m) (nd_str n) name = false).
  { rewrite G2. apply fixed_false. rewrite S4. exact NG. }
  specialize (P FX). destruct (st_type s); auto.
  - destruct P as (v & P1 & P2). exists v. split; auto. unfold reads. apply reads_look; auto. rewrite P2. f_equal.
    unfold const_of. rewrite G1, S2. destruct (Z.eqb num 1) eqn:EZ.
    + apply Z.eqb_eq in EZ. subst. reflexivity.
    + apply Z.eqb_neq in EZ. destruct (Z.to_nat num =? 1) eqn:EQ; auto. apply Nat.eqb_eq in EQ. lia.
  - destruct P as (j & d & v & P1 & P2 & P3 & P4). exists j, d, v. unfold reads. rewrite !reads_look by auto. auto.
  - destruct P as (j & d & v & P1 & P2 & P3 & P4). exists j, d, v. unfold reads. rewrite !reads_look by auto. auto.
Qed.
Example C19_applies : exists h' m n s,
  sample_parameters ex_func 5 ex_heap 0 ex_given 2 0 = Ok (h', m) /\
  reaches ex_heap 0 0 /\ nth_error h' 0 = Some n /\ In ("y", s) (nd_setters n) /\ st_type s = SFunc /\
  ~ (exists v, given_value ex_given (nd_str n) "y" v).
Proof.
  do 4 eexists. split; [rewrite ex_run_eq; reflexivity|]. split; [apply rt_refl|]. split; [reflexivity|].
  split; [right; left; reflexivity|]. split; [reflexivity|].
  intros (v & ps & [E|[]] & HI). inversion E; subst. destruct HI as [HI|[]]. inversion HI.
Qed.
Print Assumptions C19_linked_agree.

(** ** C20 *)
Theorem C20_given_args_returned : forall A W (func : W -> nat -> dict (value A) -> W * result (value A))
    fuel h root g num w h' m,
  well_formed h -> valid_given g -> sample_parameters func fuel h root g num w = Ok (h', m) ->
  forall nd name v, given_value g nd name v ->
    exists u, expands (Z.to_nat num) v u /\ reads (sm_gs m) nd name u.
Proof.
  intros A W func fuel h root g num w h' m WF VG H nd name v HV.
  destruct (run_facts _ _ _ _ _ _ _ _ _ _ _ WF VG H) as (s0 & R1 & R2 & R3 & R4 & R5 & R6 & R7 & R8 & R9 & R10 & R11 & R12).
  destruct (start_state_spec _ _ _ _ VG R2) as (S1 & S2 & S3 & S4 & S5 & S6).
  destruct (S5 _ _ _ HV) as (u & U1 & U2). exists u. split; [congruence|].
  unfold reads. apply reads_look; auto. apply R5. exact U2.
Qed.
Print Assumptions C20_given_args_returned.

(** ** C21 *)
Theorem C21_duplicate_names_rejected : forall A W (func : W -> nat -> dict (value A) -> W * result (value A))
    fuel h root g num w h' k1 k2 n1 n2,
  well_formed h -> valid_given g -> start_heap fuel h root = Ok h' ->
  reaches h root k1 -> reaches h root k2 -> k1 <> k2 ->
  nth_error h' k1 = Some n1 -> nth_error h' k2 = Some n2 -> nd_str n1 = nd_str n2 ->
  exists e, sample_parameters func fuel h root g num w = Err e.
Proof.
  intros A W func fuel h root g num w h' k1 k2 n1 n2 WF VG EH R1 R2 NE E1 E2 ES.
  destruct (sample_parameters func fuel h root g num w) as [[h2 m]|e] eqn:H; [|eauto]. exfalso.
  destruct (run_facts _ _ _ _ _ _ _ _ _ _ _ WF VG H) as (s0 & Q1 & Q2 & Q3 & Q4 & Q5 & Q6 & Q7 & Q8 & Q9 & Q10 & Q11 & Q12).
  assert (h2 = h') by congruence. subst h2.
  apply Q7 in R1, R2. unfold ids in R1, R2. apply in_map_iff in R1, R2.
  destruct R1 as ([s1 x1] & X1 & I1), R2 as ([s2 x2] & X2 & I2). simpl in X1, X2; subst.
  destruct Q6 as [ND HS]. destruct (HS _ _ I1) as (m1 & A1 & A2). destruct (HS _ _ I2) as (m2 & B1 & B2).
  assert (m1 = n1) by congruence. assert (m2 = n2) by congruence. subst.
  apply In_dget in I1; auto. apply In_dget in I2; auto. congruence.
Qed.
(** The error is the ValueError of the duplicate check when the second of the two nodes is
    visited. *)
Theorem C21_second_visit_raises : forall A W (func : W -> nat -> dict (value A) -> W * result (value A))
    fuel h (m : sm A W) i n j,
  nth_error h i = Some n -> dget (nd_str n) (sm_seen m) = Some j -> j <> i ->
  sample_helper func (S fuel) h m i = Err ValueError.
Proof.
  intros A W func fuel h m i n j EN ED NE. cbn [sample_helper]. rewrite EN, ED.
  apply Nat.eqb_neq in NE. now rewrite NE.
Qed.
(** Automatic names are distinct after [set_graph_positions], whatever the classes. *)
Theorem C21_automatic_names_distinct : forall A fuel (h : nheap A) root h' seen k1 k2 n1 n2,
  positions fuel h [] root = Ok (h', seen) ->
  reaches h root k1 -> reaches h root k2 -> k1 <> k2 ->
  nth_error h' k1 = Some n1 -> nth_error h' k2 = Some n2 ->
  nd_label n1 = None -> nd_label n2 = None -> nd_str n1 <> nd_str n2.
Proof.
  intros A fuel h root h' seen k1 k2 n1 n2 H R1 R2 NE E1 E2 L1 L2 EQ.
  destruct (positions_root _ _ _ _ _ H) as (ND & HR & HN & HH).
  assert (G : forall k n, reaches h root k -> nth_error h' k = Some n -> nd_label n = None ->
    exists pre p, nd_str n = (pre ++ String "_" (decimal p))%string /\ nth_error seen p = Some k).
  { intros k n R E L. apply reaches_reach, HR in R. rewrite HN in E.
    destruct (idx k seen) as [p|] eqn:EI; [|apply idx_In in R; congruence].
    destruct (nth_error h k) as [m|]; [|discriminate]. inversion E; subst. simpl in *.
    unfold node_string. simpl. rewrite L.
    exists (nd_class m ++ (if nd_fn m then match nd_func m with Some f => String ":"%char f | None => "" end else ""))%string, p.
    split; [|now apply idx_nth]. now rewrite append_assoc. }
  destruct (G _ _ R1 E1 L1) as (a & p & P1 & P2). destruct (G _ _ R2 E2 L2) as (b & q & Q1 & Q2).
  rewrite P1, Q1 in EQ. apply last_sep in EQ; try apply decimal_no_underscore. destruct EQ as [_ EQ].
  apply decimal_inj in EQ. subst. congruence.
Qed.
(** Labels are not protected: a label may equal an automatic name, which sampling then rejects. *)
Example C21_applies :
  let h := [ex_node None "Src" false [("x", as_parameter 1 "z")] [] [];
            ex_node (Some "Src_0") "Node" false [("z", as_constant (Atom 9%Z))] [] []] in
  sample_parameters ex_func 5 h 0 GNone 2 0 = Err ValueError /\
  exists h', start_heap 5 h 0 = Ok h' /\ reaches h 0 1 /\ map (fun n : node Z => nd_str n) h' = ["Src_0"; "Src_0"].
Proof.
  simpl. split; [reflexivity|]. eexists. split; [reflexivity|]. split; [|reflexivity].
  apply rt_step. do 3 eexists. split; [reflexivity|]. split; [left; reflexivity|]. split; [reflexivity|discriminate].
Qed.
Print Assumptions C21_duplicate_names_rejected.
Print Assumptions C21_automatic_names_distinct.

(** ** C22 *)
(** One call of [compute]: the function is called exactly with the declared names, in their
    order, each from the keyword override if there is one and otherwise from the state. *)
Theorem C22_call_arguments : forall A W (func : W -> nat -> dict (value A) -> W * result (value A))
    (m : sm A W) i n kwargs m', wf (sm_gs m) -> nd_fn n = true -> compute func m i n kwargs = Ok m' ->
  exists args w' r, func (sm_w m) i args = (w', Ok r) /\ sm_w m' = w' /\
    map fst args = nd_args n /\
    (forall k v, In (k, v) args ->
       dget k kwargs = Some v \/ (dget k kwargs = None /\ reads (sm_gs m) (nd_str n) k v)) /\
    save_results_gs (sm_gs m) (nd_str n) (nd_outs n) r = (sm_gs m', None).
Proof.
  intros A W func m i n kw m' Wf FN H. unfold compute in H. rewrite FN in H. simpl in H.
  destruct (nd_func n); [|discriminate].
  destruct (build_inputs _ _ _ _) as [args|] eqn:EB; [|discriminate].
  destruct (func (sm_w m) i args) as [w [r|]] eqn:EW; [|discriminate].
  destruct (build_inputs_spec _ _ _ _ _ EB) as [B1 B2].
  unfold save_results in H. simpl in H.
  destruct (save_results_gs _ _ _ r) as [g [e|]] eqn:ES; inversion H; subst.
  exists args, w, r. sp; auto.
  intros k v HI. destruct (B2 k v HI) as [Q|[Q1 Q2]]; auto. right. split; auto.
  unfold reads. apply reads_look; auto.
Qed.
(** The i-th result is stored under the i-th output name, and nothing else changes. *)
Theorem C22_outputs_in_order : forall A (g g' : gs A) nd outs l, wf g -> NoDup outs -> length outs <> 1 ->
  save_results_gs g nd outs (Arr l) = (g', None) ->
  length l = length outs /\
  (forall p o x, nth_error outs p = Some o -> nth_error l p = Some x -> ~ fixed_in g nd o ->
     exists w, expands (gs_n g) x w /\ reads g' nd o w) /\
  (forall nd' vr v, nd' <> nd \/ ~ In vr outs \/ fixed_in g nd' vr -> (reads g' nd' vr v <-> reads g nd' vr v)).
Proof.
  intros A g g' nd outs l Wf ND NL H. unfold save_results_gs in H.
  assert (HX : (if negb (length l =? length outs) then (g, Some ValueError)
          else gs_set_all g (map (fun ov => (nd, fst ov, snd ov)) (combine outs l)) false) = (g', None)).
  { destruct outs as [|o [|o2 outs]]; auto. simpl in NL; lia. }
  clear H. destruct (length l =? length outs) eqn:EL; simpl in HX; [|discriminate].
  apply Nat.eqb_eq in EL. split; auto.
  assert (NDk : NoDup (map fst (map (fun ov => (nd, fst ov, snd ov)) (combine outs l)))).
  { rewrite map_map. simpl. rewrite <- (map_map fst (fun o => (nd, o))).
    assert (F : map fst (combine outs l) = outs).
    { clear -EL. revert l EL. induction outs as [|o outs IH]; destruct l; simpl; intros; try discriminate; auto.
      f_equal. apply IH. lia. }
    rewrite F. apply FinFun.Injective_map_NoDup; auto. intros a b E. congruence. }
  destruct (set_all_spec _ _ _ _ Wf HX NDk) as (W' & N' & D' & L' & F' & S').
  assert (INC : forall p o x, nth_error outs p = Some o -> nth_error l p = Some x ->
     In (nd, o, x) (map (fun ov => (nd, fst ov, snd ov)) (combine outs l))).
  { clear. revert l. induction outs as [|o outs IH]; intros l [|p] a x H1 H2; try discriminate;
      destruct l as [|y l]; try discriminate; simpl in *.
    - inversion H1; inversion H2; subst. now left.
    - right. eauto. }
  split.
  - intros p o x Ho Hx Hf. apply fixed_false in Hf. assert (HI := INC _ _ _ Ho Hx).
    destruct (S' _ HI) as [Q|[w Q]]; simpl in Q; [congruence|]. exists w.
    split; [unfold expands; apply store_value_cases; auto; exact (wf_n _ Wf)|].
    unfold reads. apply reads_look; auto. rewrite L', (find_key _ _ _ _ NDk HI), Hf. simpl. now rewrite Q.
  - intros nd' vr v HD. unfold reads. rewrite !reads_look by auto. rewrite L'.
    destruct (find _ _) as [[[a b] u]|] eqn:EF; [|tauto]. apply find_some in EF. destruct EF as [HI E].
    simpl in E. apply eqb2 in E. destruct E; subst. apply in_map_iff in HI. destruct HI as ([o x] & E & HI).
    simpl in E. inversion E; subst. destruct HD as [HD|[HD|HD]]; [congruence| |].
    + exfalso. apply HD. eapply in_combine_l; eauto.
    + apply fixed_iff in HD. rewrite HD. tauto.
Qed.
(** One output gets the whole result. *)
Theorem C22_single_output : forall A (g g' : gs A) nd o r, wf g ->
  save_results_gs g nd [o] r = (g', None) -> ~ fixed_in g nd o ->
  exists w, expands (gs_n g) r w /\ reads g' nd o w.
Proof.
  intros A g g' nd o r Wf H HF. simpl in H. apply fixed_false in HF.
  destruct (set_spec _ _ _ _ _ _ _ Wf H) as (W' & HN & _ & HO & HL & _).
  destruct (HO eq_refl) as (_ & _ & [Q|[w Q]]); [congruence|]. exists w.
  split; [unfold expands; apply store_value_cases; auto; exact (wf_n _ Wf)|].
  unfold reads. apply reads_look; auto. rewrite HL, HF, !String.eqb_refl. simpl. now rewrite Q.
Qed.
(** A wrong number of results raises ValueError and leaves the state as it was. *)
Theorem C22_wrong_count : forall A (g : gs A) nd outs l, length outs <> 1 -> length l <> length outs ->
  save_results_gs g nd outs (Arr l) = (g, Some ValueError).
Proof.
  intros A g nd outs l H1 H2. unfold save_results_gs. apply Nat.eqb_neq in H2. rewrite H2.
  destruct outs as [|o [|o2 outs]]; auto. simpl in H1; lia.
Qed.
(** After a complete run: the outputs of every function node are what its function returned on
    the values its arguments have in the returned state. *)
Theorem C22_run_consistent : forall A W (func : W -> nat -> dict (value A) -> W * result (value A))
    fuel h root g num w h' m,
  well_formed h -> valid_given g -> sample_parameters func fuel h root g num w = Ok (h', m) ->
  forall k n, reaches h root k -> nth_error h' k = Some n -> nd_fn n = true ->
    (exists o s, In (o, s) (nd_setters n) /\ st_type s = SCompute) ->
    exists args w1 w2 r, func w1 k args = (w2, Ok r) /\ map fst args = nd_args n /\
      (forall a v, In (a, v) args -> reads (sm_gs m) (nd_str n) a v) /\
      (forall o, nd_outs n = [o] -> (~ exists v, given_value g (nd_str n) o v) ->
         exists u, expands (Z.to_nat num) r u /\ reads (sm_gs m) (nd_str n) o u) /\
      (length (nd_outs n) <> 1 -> exists l, r = Arr l /\ length l = length (nd_outs n) /\
         forall p o x, nth_error (nd_outs n) p = Some o -> nth_error l p = Some x ->
           (~ exists v, given_value g (nd_str n) o v) ->
           exists u, expands (Z.to_nat num) x u /\ reads (sm_gs m) (nd_str n) o u).
Proof.
  intros A W func fuel h root g num w h' m WF VG H k n HR EN FN (o0 & st & HI & HT).
  destruct (run_facts _ _ _ _ _ _ _ _ _ _ _ WF VG H) as (s0 & R1 & R2 & R3 & R4 & R5 & R6 & R7 & R8 & R9 & R10 & R11 & R12).
  destruct (start_state_spec _ _ _ _ VG R2) as (S1 & S2 & S3 & S4 & S5 & S6).
  destruct R5 as (G1 & G2 & G3).
  destruct (R8 k HR) as (n' & E' & P & C). assert (n' = n) by congruence. subst n'.
  destruct C as (args & w1 & w2 & r & C1 & C2 & C3 & C4); auto.
  { apply existsb_exists. exists (o0, st). split; auto. unfold is_compute. simpl. now rewrite HT. }
  assert (NF : forall o, (~ exists v, given_value g (nd_str n) o v) -> is_fixed (sm_gs m) (nd_str n) o = false).
  { intros o NG. rewrite G2. apply fixed_false. rewrite S4. exact NG. }
  assert (EX : forall x u : value A, store_value (gs_n (sm_gs m)) x = Ok u -> expands (Z.to_nat num) x u).
  { intros x u Q. rewrite G1, S2 in Q. unfold expands. apply store_value_cases; auto. rewrite <- S2; auto. }
  exists args, w1, w2, r. sp; auto.
  - intros a v Ha. unfold reads. apply reads_look; auto.
  - intros o EO NG. unfold outputs_ok in C4. rewrite EO in C4. destruct (C4 (NF o NG)) as (u & U1 & U2).
    exists u. split; auto. unfold reads. apply reads_look; auto.
  - intros NL. unfold outputs_ok in C4.
    assert (D : exists l, r = Arr l /\ length l = length (nd_outs n) /\
       forall p o x, nth_error (nd_outs n) p = Some o -> nth_error l p = Some x ->
         is_fixed (sm_gs m) (nd_str n) o = false ->
         exists w, store_value (gs_n (sm_gs m)) x = Ok w /\ look (sm_gs m) (nd_str n) o = Some w).
    { destruct (nd_outs n) as [|a [|b outs]]; auto. simpl in NL; lia. }
    destruct D as (l & D1 & D2 & D3). exists l. sp; auto. intros p o x Ho Hx NG.
    destruct (D3 p o x Ho Hx (NF o NG)) as (u & U1 & U2). exists u. split; auto. unfold reads. apply reads_look; auto.
Qed.
Example C22_applies : exists h' m n,
  sample_parameters ex_func 5 ex_heap 0 ex_given 2 0 = Ok (h', m) /\
  nth_error h' 1 = Some n /\ nd_fn n = true /\ nd_outs n = ["lo"; "hi"] /\
  reads (sm_gs m) (nd_str n) "lo" (Arr [Atom 1%Z; Atom 1%Z]) /\
  reads (sm_gs m) (nd_str n) "hi" (Arr [Atom 9%Z; Atom 9%Z]).
Proof. do 3 eexists. split; [rewrite ex_run_eq; reflexivity|]. repeat split; reflexivity. Qed.
Print Assumptions C22_call_arguments.
Print Assumptions C22_outputs_in_order.
Print Assumptions C22_single_output.
Print Assumptions C22_wrong_count.
Print Assumptions C22_run_consistent.
