(** Property C105: the functions of the nodes are called one after the other, each exactly once, and the state of the random number
    generators is handed from each call to the next (src/lightcurvelynx/base_models.py 540-653, 932-971): no draw is lost or made twice. *)
From Coq Require Import String Ascii List Bool Arith ZArith Lia Relations.
From Verif Require Import Base BaseFacts Numerals GraphStateModel GraphStateProofs GraphStateProofs2 GraphStateProofs4 GraphStateProps
  NodeGraphModel NodeGraphProofs NodeSampleProofs NodeSampleProofs2 NodeGraphProps NodeChainProofs.
Import ListNotations.
Open Scope string_scope.
Open Scope list_scope.
Open Scope nat_scope.
#[local] Hint Resolve wf_wk reachable_wf : core.

(** ** Specification *)
(** A call [c] of the function of its node, in a run that ended with the sampled state [st]: its arguments are the sampled values of the
    arguments, and the sampled outputs are (copies of) its results. *)
Definition call_in {A W} (func : W -> nat -> dict (value A) -> W * result (value A)) (h : nheap A) (g : given A) (num : nat) (st : gs A) (c : call A W) : Prop :=
  exists n, nth_error h (c_node c) = Some n /\ nd_fn n = true /\
    func (c_before c) (c_node c) (c_args c) = (c_after c, Ok (c_result c)) /\
    map fst (c_args c) = nd_args n /\
    (forall a v, In (a, v) (c_args c) -> reads st (nd_str n) a v) /\
    (forall o, nd_outs n = [o] -> (~ exists v, given_value g (nd_str n) o v) -> exists u, expands num (c_result c) u /\ reads st (nd_str n) o u) /\
    (length (nd_outs n) <> 1 -> exists l, c_result c = Arr l /\ length l = length (nd_outs n) /\
       forall p o x, nth_error (nd_outs n) p = Some o -> nth_error l p = Some x -> (~ exists v, given_value g (nd_str n) o v) ->
         exists u, expands num x u /\ reads st (nd_str n) o u).

(** ** C105 *)
Lemma computed_in : forall A (h : nheap A) tr k, In k (computed h tr) <-> In (ECompute k) tr /\ exists n, nth_error h k = Some n /\ nd_fn n = true.
Proof.
  intros A h tr k. unfold computed. rewrite in_flat_map. split.
  - intros (e & He & Hk). destruct e as [j|j nm|j|j]; try destruct Hk. destruct (nth_error h j) as [n|] eqn:E; [|destruct Hk]. destruct (nd_fn n) eqn:F; [|destruct Hk].
    destruct Hk as [<-|[]]. split; eauto.
  - intros (He & n & E & F). exists (ECompute k). split; auto. rewrite E, F. now left.
Qed.
Lemma computed_nodup : forall A (h : nheap A) tr, NoDup tr -> NoDup (computed h tr).
Proof.
  intros A h tr ND. induction ND as [|e tr NI ND IH]; [constructor|].
  change (computed h (e :: tr)) with ((match e with ECompute k => match nth_error h k with Some n => if nd_fn n then [k] else [] | None => [] end | _ => [] end) ++ computed h tr).
  destruct e as [j|j nm|j|j]; auto. destruct (nth_error h j) as [n|]; auto. destruct (nd_fn n); auto. simpl. constructor; auto.
  intros HI. apply computed_in in HI. tauto.
Qed.
Theorem C105_calls_in_sequence : forall A W (func : W -> nat -> dict (value A) -> W * result (value A)) fuel h root g num w h' m,
  well_formed h -> valid_given g -> sample_parameters func fuel h root g num w = Ok (h', m) ->
  exists calls,
    (* the generators go from call to call *)
    threaded w calls (sm_w m) /\
    (* the calls are those of the function nodes of the model that compute something, each once *)
    NoDup (map c_node calls) /\
    (forall k, In k (map c_node calls) <->
       reaches h root k /\ exists n, nth_error h' k = Some n /\ nd_fn n = true /\ exists name s, In (name, s) (nd_setters n) /\ st_type s = SCompute) /\
    (* in the order of the trace (C18: dependencies first) *)
    map c_node calls = computed h' (sm_tr m) /\
    Forall (call_in func h' g (Z.to_nat num) (sm_gs m)) calls.
Proof.
  intros A W func fuel h root g num w h' m WF VG H.
  destruct (run_facts _ _ _ _ _ _ _ _ _ _ _ WF VG H) as (s0 & R1 & R2 & R3 & R4 & R5 & R6 & R7 & R8 & R9 & R10 & R11 & R12).
  destruct (start_state_spec _ _ _ _ VG R2) as (S1 & S2 & S3 & S4 & S5 & S6).
  assert (WF' := start_heap_wf _ _ _ _ _ R1 WF).
  assert (GN : forall k n, nth_error h' k = Some n -> good_node n) by (intros k n E; apply (WF' _ _ E)).
  assert (SO : seen_ok h' (sm_seen (mkSM s0 [] w []))) by (split; [constructor|simpl; tauto]).
  assert (OW : owned s0 []) by (intros nd vr v Hv; left; eauto).
  destruct (calls_spec func fuel h' (mkSM s0 [] w []) root m GN SO S1 OW R3) as (calls & t & T1 & T2 & T3 & T4).
  cbn [sm_tr sm_w app] in T1, T2. subst t. exists calls. split; auto. split; [|split; [|split; auto]].
  - rewrite T3. now apply computed_nodup.
  - intros k. rewrite T3, computed_in. split.
    + intros (HI & n & En & FN). assert (HR : reaches h root k) by exact (R10 _ HI). split; auto. exists n. split; auto. split; auto.
      assert (HC : In k (computed h' (sm_tr m))) by (apply computed_in; eauto). rewrite <- T3 in HC. apply in_map_iff in HC. destruct HC as (c & <- & HC).
      rewrite Forall_forall in T4. destruct (T4 _ HC) as (n' & N1 & N2 & N3 & _). assert (n' = n) by congruence. subst n'.
      apply existsb_exists in N3. destruct N3 as ([nm st] & X1 & X2). exists nm, st. split; auto.
      simpl in X2. unfold is_compute in X2. destruct (st_type st); auto; discriminate.
    + intros (HR & n & En & FN & nm & st & X1 & X2). split; [|eauto].
      destruct (R12 k HR) as (n' & F1 & F2 & F3 & F4 & F5). assert (n' = n) by congruence. subst n'.
      apply F5. apply existsb_exists. exists (nm, st). split; auto. simpl. unfold is_compute. now rewrite X2.
  - destruct R5 as (G1 & G2 & G3).
    assert (NF : forall n o, (~ exists v, given_value g n o v) -> is_fixed (sm_gs m) n o = false).
    { intros n o NG. rewrite G2. apply fixed_false. rewrite S4. exact NG. }
    assert (EX : forall x u : value A, store_value (gs_n (sm_gs m)) x = Ok u -> expands (Z.to_nat num) x u).
    { intros x u Q. rewrite G1, S2 in Q. unfold expands. apply store_value_cases; auto. rewrite <- S2; auto. }
    eapply Forall_impl; [|exact T4]. intros c (n & Q1 & Q2 & QX & Q3 & Q4 & Q5 & Q6). exists n.
    split; auto. split; auto. split; auto. split; auto. split; [|split].
    + intros a v Hav. unfold reads. apply reads_look; auto.
    + intros o EO NG. unfold outputs_ok in Q6. rewrite EO in Q6. destruct (Q6 (NF _ _ NG)) as (u & U1 & U2). exists u.
      split; auto. unfold reads; apply reads_look; auto.
    + intros NL. unfold outputs_ok in Q6.
      assert (D : exists l, c_result c = Arr l /\ length l = length (nd_outs n) /\
         forall p o x, nth_error (nd_outs n) p = Some o -> nth_error l p = Some x ->
           is_fixed (sm_gs m) (nd_str n) o = false ->
           exists w, store_value (gs_n (sm_gs m)) x = Ok w /\ look (sm_gs m) (nd_str n) o = Some w).
      { destruct (nd_outs n) as [|a [|b outs]]; auto. simpl in NL; lia. }
      destruct D as (l & D1 & D2 & D3). exists l. sp; auto. intros p o x Ho Hx NG.
      destruct (D3 p o x Ho Hx (NF _ _ NG)) as (u & U1 & U2). exists u. split; auto. unfold reads. apply reads_look; auto.
Qed.

(** If the world contains a generator whose position only ever advances, the draws of the calls are consecutive intervals between the
    position at the start and the position at the end: no two calls use the same draw, and no draw in between is skipped. *)
Lemma threaded_spans : forall A W (position : W -> nat) (calls : list (call A W)) w w', threaded w calls w' ->
  Forall (fun c => position (c_before c) <= position (c_after c)) calls ->
  position w <= position w' /\
  (forall a b c, calls = a ++ c :: b -> position w <= position (c_before c) /\ position (c_after c) <= position w') /\
  (forall a b e c d, calls = a ++ c :: b ++ d :: e -> position (c_after c) <= position (c_before d)) /\
  (forall p, position w <= p < position w' -> exists c, In c calls /\ position (c_before c) <= p < position (c_after c)).
Proof.
  intros A W position calls. induction calls as [|c0 cs IH]; intros w w' T F; simpl in T.
  - subst. split; auto. split; [|split]; [intros a b c E; destruct a; discriminate..|intros p HP; lia].
  - destruct T as [<- T]. inversion F as [|? ? F1 F2]; subst. destruct (IH _ _ T F2) as (I1 & I2 & I3 & I4). split; [lia|]. split; [|split].
    + intros a b c E. destruct a as [|a0 a]; injection E as <- E; [lia|]. destruct (I2 _ _ _ E). lia.
    + intros a b e c d E. destruct a as [|a0 a]; injection E as <- E; [|eauto]. destruct (I2 _ _ _ E). lia.
    + intros p HP. destruct (Nat.lt_ge_cases p (position (c_after c0))) as [L|L].
      * exists c0. split; [now left|lia].
      * destruct (I4 p) as (c & C1 & C2); [lia|]. exists c. split; [now right|auto].
Qed.
Theorem C105_no_draw_shared : forall A W (func : W -> nat -> dict (value A) -> W * result (value A)) fuel h root g num w h' m (position : W -> nat),
  well_formed h -> valid_given g -> sample_parameters func fuel h root g num w = Ok (h', m) ->
  (forall w1 k args w2 r, func w1 k args = (w2, r) -> position w1 <= position w2) ->
  exists calls, map c_node calls = computed h' (sm_tr m) /\ Forall (call_in func h' g (Z.to_nat num) (sm_gs m)) calls /\
    (forall i j c d, nth_error calls i = Some c -> nth_error calls j = Some d -> i <> j ->
       position (c_after c) <= position (c_before d) \/ position (c_after d) <= position (c_before c)) /\
    (forall p, position w <= p < position (sm_w m) <-> exists c, In c calls /\ position (c_before c) <= p < position (c_after c)).
Proof.
  intros A W func fuel h root g num w h' m position WF VG H MON.
  destruct (C105_calls_in_sequence _ _ _ _ _ _ _ _ _ _ _ WF VG H) as (calls & T1 & T2 & T3 & T4 & T5).
  exists calls. split; auto. split; auto.
  assert (F : Forall (fun c => position (c_before c) <= position (c_after c)) calls).
  { eapply Forall_impl; [|exact T5]. intros c (n & _ & _ & E & _). eauto. }
  destruct (threaded_spans _ _ position _ _ _ T1 F) as (P1 & P2 & P3 & P4).
  assert (OR : forall i j c d, nth_error calls i = Some c -> nth_error calls j = Some d -> i < j -> position (c_after c) <= position (c_before d)).
  { intros i j c d Ei Ej L. destruct (nth_error_split _ _ Ei) as (a & b & E & LA). subst calls.
    rewrite nth_error_app2 in Ej by lia. replace (j - length a) with (S (j - length a - 1)) in Ej by lia. cbn [nth_error] in Ej.
    destruct (nth_error_split _ _ Ej) as (b1 & b2 & E2 & _). subst b. eapply P3. reflexivity. }
  split.
  - intros i j c d Ei Ej NE. destruct (Nat.lt_total i j) as [L|[L|L]]; [left; eauto|lia|right; eauto].
  - intros p. split; auto. intros (c & C1 & C2). apply in_split in C1. destruct C1 as (a & b & E). destruct (P2 _ _ _ E). lia.
Qed.
(** The hypotheses are met: the example of NodeGraphProps, whose world counts the calls. *)
Example C105_applies : exists h' m,
  sample_parameters ex_func 5 ex_heap 0 ex_given 2 0 = Ok (h', m) /\ well_formed ex_heap /\ valid_given ex_given /\ sm_w m = 1 /\
  computed h' (sm_tr m) = [1] /\ (forall w1 k args w2 r, ex_func w1 k args = (w2, r) -> w1 <= w2).
Proof.
  do 2 eexists. split; [rewrite ex_run_eq; reflexivity|]. split; [exact ex_heap_wf|]. split.
  { destruct C18_applies as (h' & m & H1 & H2 & _). exact H2. }
  split; [reflexivity|]. split; [reflexivity|].
  intros w1 k args w2 r E. unfold ex_func in E. destruct args as [|[? ?] [|[? ?] [|]]]; injection E as <- <-; lia.
Qed.
Print Assumptions C105_calls_in_sequence.
Print Assumptions C105_no_draw_shared.
