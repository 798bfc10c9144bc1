(** The recursive methods of [ParameterizedNode] (base_models.py 239-262, 540-653, 696-715) on long
    chains of nodes: Python's recursion limit is the [fuel] of [NodeGraphModel], and whatever it
    is, there are models (a chain of objects, each taking its parameter from the next) that
    cannot be numbered, sampled or drawn.  The companion of C17_terminates, which gives a depth
    that always suffices. *)
From Coq Require Import String List Bool Arith ZArith Lia.
From Verif Require Import Base Numerals GraphStateModel DependencyGraphModel NodeGraphModel NodeHelpers NodeGraphProps.
Import ListNotations.
Open Scope string_scope.
Open Scope list_scope.
Open Scope nat_scope.

Section Chain.
Context {A : Type}.
Variable v : value A.

(** Node [k] of a chain of [n]: its parameter [x] is that of node [k + 1], and a constant in the
    last. *)
Definition chain_node (n k : nat) : node A :=
  mkNode None "Src" false None
    [("x", if S k <? n then as_parameter (S k) "x" else as_constant v)] None "" [] [] [].
Definition chain (n : nat) : nheap A := map (chain_node n) (seq 0 n).

Lemma chain_nth : forall n k, k < n -> nth_error (chain n) k = Some (chain_node n k).
Proof.
  intros n k H. unfold chain. rewrite nth_error_map. 
  rewrite (nth_error_nth' _ 0); [|now rewrite seq_length]. simpl. now rewrite seq_nth.
Qed.

Lemma upd_other : forall {B} i (x : B) l k, k <> i -> nth_error (upd i x l) k = nth_error l k.
Proof.
  intros B i x l. revert i. induction l as [|y l IH]; intros i k H; [destruct i; auto|].
  destruct i, k; simpl; auto; try congruence.
Qed.

Lemma chain_fails : forall n f h seen i, i + f < n ->
  (forall k, i <= k -> nth_error h k = nth_error (chain n) k) -> (forall k, In k seen -> k < i) ->
  positions f h seen i = Err RecursionError.
Proof.
  intros n f. induction f as [|f IH]; intros h seen i HF HH HS; [reflexivity|].
  cbn [positions].
  destruct (existsb (Nat.eqb i) seen) eqn:EX.
  { apply existsb_exists in EX as (k & Hk & E). apply Nat.eqb_eq in E as <-. specialize (HS i Hk). lia. }
  rewrite HH, chain_nth by lia. unfold chain_node at 2. cbn [nd_setters map snd].
  replace (S i <? n) with true by (symmetry; apply Nat.ltb_lt; lia).
  cbn [fold_res as_parameter st_dep fst snd].
  replace (S i =? i) with false by (symmetry; apply Nat.eqb_neq; lia).
  rewrite IH; auto; [lia| |].
  - intros k Hk. rewrite upd_other by lia. apply HH. lia.
  - intros k Hk. apply in_app_or in Hk as [Hk|[<-|[]]]; [specialize (HS k Hk)|]; lia.
Qed.

(** A chain depends only downwards, on existing nodes. *)
Lemma chain_depends : forall n i j, depends (chain n) i j -> j = S i /\ j < n.
Proof.
  intros n i j (nd & name & s & HN & HI & HS & HJ).
  assert (HL : i < n).
  { assert (i < length (chain n)) by (apply nth_error_Some; congruence). unfold chain in H. rewrite map_length, seq_length in H. auto. }
  rewrite chain_nth in HN by auto. injection HN as <-. simpl in HI. destruct HI as [HI|[]].
  injection HI as <- <-. destruct (S i <? n) eqn:E; simpl in HS; [|discriminate].
  apply Nat.ltb_lt in E. injection HS as <-. auto.
Qed.
End Chain.

(** ** The property *)
(** Whatever the recursion limit, there is a well-formed, acyclic model without dangling links, of
    unlabelled objects with one parameter each, that can be neither numbered nor sampled nor drawn:
    every call raises RecursionError.  One node fewer than the limit is no problem
    (C17_terminates). *)
Theorem C17_deep_chain_refuted : forall (A : Type) (v : value A) (fuel : nat),
  exists h : nheap A,
    length h = S fuel /\ no_dangling h /\ acyclic h /\ well_formed h /\
    positions fuel h [] 0 = Err RecursionError /\
    (forall (W : Type) (func : W -> nat -> dict (value A) -> W * result (value A)) g num w,
       sample_parameters func fuel h 0 g num w = Err RecursionError) /\
    (forall render, build_dependency_graph render fuel h 0 = Err RecursionError) /\
    exists h' seen, positions (S (S fuel)) h [] 0 = Ok (h', seen).
Proof.
  intros A v fuel. exists (chain v (S fuel)).
  assert (HL : length (chain v (S fuel)) = S fuel) by (unfold chain; now rewrite map_length, seq_length).
  assert (HD : no_dangling (chain v (S fuel))).
  { intros i j H. apply chain_depends in H as [-> H]. now rewrite HL. }
  assert (HP : positions fuel (chain v (S fuel)) [] 0 = Err RecursionError).
  { apply (chain_fails v (S fuel) fuel _ [] 0); auto. intros k []. }
  assert (HS : start_heap fuel (chain v (S fuel)) 0 = Err RecursionError).
  { unfold start_heap. rewrite chain_nth by lia. cbn [nd_pos chain_node]. now rewrite HP. }
  repeat match goal with |- _ /\ _ => split end; auto.
  - exists (fun i => S fuel - i). intros i j H. apply chain_depends in H as [-> H]. lia.
  - intros k n HN.
    assert (HK : k < S fuel) by (rewrite <- HL; apply nth_error_Some; congruence).
    rewrite chain_nth in HN by auto. injection HN as <-. simpl.
    repeat match goal with |- _ /\ _ => split end; [repeat constructor; simpl; tauto|constructor|tauto].
  - intros W func g num w. unfold sample_parameters. now rewrite HS.
  - intros render. unfold build_dependency_graph. now rewrite HS.
  - apply C17_terminates; auto; rewrite HL; lia.
Qed.
Print Assumptions C17_deep_chain_refuted.
