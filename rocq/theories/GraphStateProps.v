(** Properties C01-C14: GraphState (src/lightcurvelynx/graph_state.py). *)
From Coq Require Import String Ascii List Bool Arith ZArith QArith Lia Permutation.
From Verif Require Import Base BaseFacts GraphStateModel GraphStateHeapModel GraphStateProofs
  GraphStateProofs2 GraphStateProofs3 GraphStateProofs4 GraphStateHeapProofs.
Import ListNotations.
Open Scope string_scope.
Open Scope list_scope.
Open Scope nat_scope.

(** ** Vocabulary of the statements *)

(** [state["node.var"]] evaluates to [v]. *)
Definition reads {A} (s : gs A) (node var : string) (v : value A) : Prop :=
  gs_getitem s (full_name node var) = Ok (IVal v).
(** [var] is in [state.fixed_vars[node]]. *)
Definition fixed_in {A} (s : gs A) (node var : string) : Prop :=
  exists l, dget node (gs_fixed s) = Some l /\ In var l.
(** What a value given to [set] looks like once stored in a state of [n] samples. *)
Definition expands {A} (n : nat) (v w : value A) : Prop :=
  (n = 1 /\ w = v) \/
  (n <> 1 /\ ((exists a, v = Atom a /\ w = Arr (repeat (Atom a) n)) \/
              (exists l, v = Arr l /\ length l = n /\ w = v))).
(** A sequence whose length is not the number of samples. *)
Definition wrong_length {A} (n : nat) (v : value A) : Prop :=
  n <> 1 /\ exists l, v = Arr l /\ length l <> n.

#[local] Hint Resolve wf_wk reachable_wf : core.

Lemma fixed_false : forall A (s : gs A) node var, ~ fixed_in s node var <-> is_fixed s node var = false.
Proof.
  intros. unfold fixed_in. rewrite fixed_iff. destruct (is_fixed s node var); split; congruence.
Qed.

(** A small history used as the concrete case of several theorems: three samples, two nodes,
    a fixed parameter, a failing call. *)
Definition ex_ops : list (op Z) :=
  [OSet "a" "x" (Atom 5%Z) false;
   OSet "a" "y" (Arr [Atom 1%Z; Atom 2%Z; Atom 3%Z]) true;
   OSet "b" "x" (Arr [Atom 7%Z; Atom 8%Z; Atom 9%Z]) false;
   OSet "b" "y" (Arr [Atom 7%Z]) false;
   OSet "a" "y" (Atom 0%Z) false].
Definition ex_state : gs Z := run (gs_fresh 3) ex_ops.
Example ex_state_reachable : reachable ex_state.
Proof. exists 3, ex_ops. split; [lia|reflexivity]. Qed.

(** ** C01 *)
Theorem C01_set_stores_exactly : forall A (s : gs A) node var v fixed s' r,
  reachable s -> gs_set s node var v fixed = (s', r) ->
  match r with
  | None =>
      (forall nd vr x, (nd, vr) <> (node, var) -> (reads s' nd vr x <-> reads s nd vr x)) /\
      (~ fixed_in s node var -> exists w, expands (gs_n s) v w /\ reads s' node var w) /\
      (fixed_in s node var -> forall x, reads s' node var x <-> reads s node var x)
  | Some e =>
      e = ValueError /\
      (has_dot node = true \/ has_dot var = true \/ wrong_length (gs_n s) v) /\
      (forall nd vr x, reads s' nd vr x <-> reads s nd vr x)
  end.
Proof.
  intros A s node var v fixed s' r R H. assert (W := reachable_wf _ R).
  destruct (set_spec _ _ _ _ _ _ _ W H) as (W' & HN & HR & HO & HL & HF & HE & _).
  assert (L : forall nd vr x, (reads s' nd vr x <-> look s' nd vr = Some x) /\
                              (reads s nd vr x <-> look s nd vr = Some x)).
  { intros. unfold reads. now rewrite !reads_look by auto. }
  destruct r as [e|].
  - assert (e = ValueError) by (destruct HR; congruence). subst e. split; auto. split.
    + destruct (HE eq_refl) as [G|[G|G]]; auto. right; right.
      apply store_value_fails; [apply W|eauto].
    + intros nd vr x. destruct (L nd vr x) as [-> ->]. now rewrite HL.
  - split; [|split].
    + intros nd vr x NE. destruct (L nd vr x) as [-> ->]. rewrite HL.
      destruct (String.eqb nd node && String.eqb vr var) eqn:E; simpl; [|tauto].
      apply eqb2 in E. destruct E; subst. congruence.
    + intros NF. apply fixed_false in NF. destruct (HO eq_refl) as (_ & _ & [G|[w G]]); [congruence|].
      exists w. split; [apply store_value_cases; [apply W|auto]|].
      apply L. rewrite HL, NF, !String.eqb_refl. simpl. now rewrite G.
    + intros FX x. destruct (L node var x) as [-> ->]. rewrite HL.
      apply fixed_iff in FX. rewrite FX, andb_false_r. tauto.
Qed.
(** Exactly when [set] raises. *)
Theorem C01_set_raises_iff : forall A (s : gs A) node var v fixed, reachable s ->
  (snd (gs_set s node var v fixed) <> None <->
   has_dot node = true \/ has_dot var = true \/ (~ fixed_in s node var /\ wrong_length (gs_n s) v)).
Proof.
  intros A s node var v fixed R. assert (W := reachable_wf _ R).
  destruct (gs_set s node var v fixed) as [s' r] eqn:H. simpl.
  destruct (set_spec _ _ _ _ _ _ _ W H) as (W' & HN & HR & HO & HL & HF & HE & _).
  assert (WL : (exists e, store_value (gs_n s) v = Err e) <-> wrong_length (gs_n s) v)
    by (apply store_value_fails; apply W).
  split.
  - intros NE. destruct HR as [HR|HR]; [congruence|]. destruct (HE HR) as [G|[G|G]]; auto.
    right; right. split; [|apply WL; eauto].
    rewrite fixed_false. destruct (is_fixed s node var) eqn:EF; auto. exfalso.
    (* a fixed parameter is left alone before its value is looked at *)
    unfold gs_set in H. destruct (has_dot node || has_dot var) eqn:ED.
    + unfold is_fixed in EF. destruct (dget node (gs_fixed s)) as [l|] eqn:E1; [|discriminate].
      destruct (look s node var) as [x|] eqn:EX.
      * destruct (look_nodot _ _ _ _ (wf_wk _ W) EX) as [D1 D2]. rewrite D1, D2 in ED. discriminate.
      * apply (wf_fix _ W node var); auto. unfold is_fixed. now rewrite E1.
    + unfold is_fixed in EF. destruct (dget node (gs_fixed s)) as [l|] eqn:E1; [|discriminate].
      assert (M : dmem node (gs_states s) = true).
      { apply dmem_true. rewrite <- (wf_keys _ W). apply dget_keys. congruence. }
      rewrite M, E1, EF in H. inversion H; subst. discriminate.
  - intros [G|[G|[G1 G2]]] E; subst r.
    + destruct (HO eq_refl) as [Q _]. congruence.
    + destruct (HO eq_refl) as (_ & Q & _). congruence.
    + destruct (HO eq_refl) as (_ & _ & [Q|[w Q]]).
      * apply fixed_false in G1. congruence.
      * apply WL in G2. destruct G2. congruence.
Qed.
Example C01_applies : reachable ex_state /\
  snd (gs_set ex_state "b" "z" (Atom 4%Z) false) = None /\
  reads (fst (gs_set ex_state "b" "z" (Atom 4%Z) false)) "b" "z" (Arr [Atom 4%Z; Atom 4%Z; Atom 4%Z]) /\
  reads (fst (gs_set ex_state "b" "z" (Atom 4%Z) false)) "a" "y" (Arr [Atom 1%Z; Atom 2%Z; Atom 3%Z]).
Proof. split; [apply ex_state_reachable|]. repeat split; reflexivity. Qed.
Print Assumptions C01_set_stores_exactly.
Print Assumptions C01_set_raises_iff.

(** ** C02 *)
Theorem C02_shape_invariant : forall A (n : nat) (ops : list (op A)) node var v,
  2 <= n -> reads (run (gs_fresh n) ops) node var v -> exists l, v = Arr l /\ length l = n.
Proof.
  intros A n ops node var v HN H.
  assert (W : wf (run (@gs_fresh A n) ops)) by (apply wf_run, wf_fresh; lia).
  assert (HS : gs_n (run (@gs_fresh A n) ops) = n).
  { apply (run_inv (fun s => wf s /\ gs_n s = n)); [|split; [apply wf_fresh; lia|reflexivity]].
    intros s nd vr x fx s' r [Ws Hs] E. destruct (set_spec _ _ _ _ _ _ _ Ws E) as (Q1 & Q2 & _).
    split; congruence. }
  unfold reads in H. apply reads_look in H; auto.
  apply (wf_var _ W) in H. destruct H as [_ [H|H]]; [lia|]. now rewrite HS in H.
Qed.
Example C02_applies : reads ex_state "a" "x" (Arr [Atom 5%Z; Atom 5%Z; Atom 5%Z]).
Proof. reflexivity. Qed.
Print Assumptions C02_shape_invariant.

(** ** C03 *)
Theorem C03_fixed_never_changes : forall A (s : gs A) node var v ops,
  reachable s -> fixed_in s node var -> reads s node var v ->
  fixed_in (run s ops) node var /\ reads (run s ops) node var v.
Proof.
  intros A s node var v ops R HF H. assert (W := reachable_wf _ R).
  apply fixed_iff in HF. unfold reads in H. apply reads_look in H; auto.
  destruct (fixed_stable ops s node var v W HF H) as [G1 G2]. split.
  - now apply fixed_iff.
  - unfold reads. apply reads_look; auto. apply wf_wk, wf_run, W.
Qed.
(** A successful [set(..., fixed=True)] makes the parameter fixed. *)
Theorem C03_set_fixed_fixes : forall A (s : gs A) node var v s',
  reachable s -> gs_set s node var v true = (s', None) -> fixed_in s' node var.
Proof.
  intros A s node var v s' R H. assert (W := reachable_wf _ R).
  destruct (set_spec _ _ _ _ _ _ _ W H) as (_ & _ & _ & _ & _ & HF & _).
  apply fixed_iff. rewrite HF, !String.eqb_refl. apply orb_true_r.
Qed.
(** So does [update(..., all_fixed=True)], for every parameter of the input state. *)
Theorem C03_update_fixed_fixes : forall A (s t s' : gs A) node var v,
  reachable s -> reachable t -> gs_update s t true = (s', None) -> reads t node var v ->
  fixed_in s' node var.
Proof.
  intros A s t s' node var v R Rt H HR. assert (W := reachable_wf _ R).
  unfold reads in HR. apply reads_look in HR; auto.
  destruct (update_spec s t true s' W (wf_wk _ (reachable_wf _ Rt)) H) as (_ & _ & _ & _ & _ & HF).
  apply fixed_iff. rewrite HF, HR. apply orb_true_r.
Qed.
Example C03_applies : fixed_in ex_state "a" "y" /\
  reads ex_state "a" "y" (Arr [Atom 1%Z; Atom 2%Z; Atom 3%Z]).
Proof. split; [exists ["y"]; split; [reflexivity|left; reflexivity]|reflexivity]. Qed.
Print Assumptions C03_fixed_never_changes.
Print Assumptions C03_set_fixed_fixes.
Print Assumptions C03_update_fixed_fixes.

(** ** C04.  The claim is false as stated: a [set] that raises on a wrong length
    has already counted its parameter. *)
Theorem C04_len_refuted : exists (ops : list (op Z)),
  let s := run (gs_fresh 2) ops in gs_len s <> length (gs_names s).
Proof. exists [OSet "a" "x" (Arr [Atom 1%Z]) false]. vm_compute. discriminate. Qed.
(** It holds for every history in which no call raised. *)
Theorem C04_len_partial : forall A n (ops : list (op A)),
  1 <= n -> run_clean (gs_fresh n) ops ->
  gs_len (run (gs_fresh n) ops) = length (gs_names (run (gs_fresh n) ops)) /\
  NoDup (gs_names (run (gs_fresh n) ops)) /\
  (forall node var, has_dot node = false -> has_dot var = false ->
     (In (full_name node var) (gs_names (run (gs_fresh n) ops)) <->
      exists v, reads (run (gs_fresh n) ops) node var v)).
Proof.
  intros A n ops HN HC. assert (W := wf_run ops _ (@wf_fresh A n HN)). split; [|split].
  - unfold gs_len. rewrite (run_count ops (gs_fresh n)); auto using wf_fresh.
    unfold count. now rewrite gs_names_entries, map_length.
  - apply NoDup_names; auto.
  - intros node var D1 D2. rewrite In_names_look by auto. split.
    + intros H. destruct (look (run (gs_fresh n) ops) node var) as [v|] eqn:E; [|congruence].
      exists v. unfold reads. apply reads_look; auto.
    + intros [v H]. unfold reads in H. apply reads_look in H; auto. congruence.
Qed.
Example C04_applies : run_clean (gs_fresh 3)
  [OSet "a" "x" (Atom 5%Z) false; OSet "a" "x" (Atom 6%Z) true; OSet "a" "y" (Atom 6%Z) true].
Proof. vm_compute. tauto. Qed.
Print Assumptions C04_len_refuted.
Print Assumptions C04_len_partial.

(** ** C05 *)
(** The value of sample [i] of a stored value [v]. *)
Definition sample_value {A} (n : nat) (v : value A) (i : nat) (x : value A) : Prop :=
  (n = 1 /\ x = v) \/ (n <> 1 /\ exists l, v = Arr l /\ nth_error l i = Some x).

Theorem C05_extract_single_sample : forall A (s : gs A) (i : Z), reachable s ->
  ((exists t, gs_extract s i = Ok t) <-> (0 <= i < Z.of_nat (gs_n s))%Z) /\
  (forall t, gs_extract s i = Ok t ->
     gs_n t = 1 /\
     (forall x, In x (gs_names t) <-> In x (gs_names s)) /\
     (forall node var x, reads t node var x <->
        exists v, reads s node var v /\ sample_value (gs_n s) v (Z.to_nat i) x)).
Proof.
  intros A s i R. assert (W := reachable_wf _ R). split; [split|].
  - intros [t H]. now apply extract_spec in H.
  - intros H. now apply extract_total.
  - intros t H. assert (Wt := extract_wk _ _ _ W H).
    destruct (extract_spec _ _ _ H) as (HI & H1 & _ & _ & _ & _ & HL).
    assert (SV : forall (v x : value A), sample_of (gs_n s) v (Z.to_nat i) = Some x <->
                             sample_value (gs_n s) v (Z.to_nat i) x).
    { intros v x. unfold sample_of, sample_value. destruct (gs_n s =? 1) eqn:E.
      - apply Nat.eqb_eq in E. split; [intros Q; inversion Q; auto|]. intros [[_ ->]|[Q _]]; congruence.
      - apply Nat.eqb_neq in E. split.
        + intros Q. right. split; auto. destruct v; [discriminate|eauto].
        + intros [[Q _]|[_ [l [-> Q]]]]; congruence. }
    assert (RD : forall node var x, reads t node var x <->
        exists v, reads s node var v /\ sample_value (gs_n s) v (Z.to_nat i) x).
    { intros node var x. unfold reads at 1. rewrite reads_look by auto. rewrite HL. split.
      - destruct (look s node var) as [v|] eqn:E; [|discriminate]. intros Q. exists v.
        split; [unfold reads; apply reads_look; auto|now apply SV].
      - intros [v [Q1 Q2]]. unfold reads in Q1. apply reads_look in Q1; auto. rewrite Q1. now apply SV. }
    split; auto. split; auto.
    intros x. rewrite !In_names by auto. split; intros [node [var [v [Q1 Q2]]]].
    + rewrite HL in Q1. destruct (look s node var) as [w|] eqn:E; [|discriminate]. eauto.
    + exists node, var. destruct (sample_of (gs_n s) v (Z.to_nat i)) as [w|] eqn:E.
      * exists w. split; auto. now rewrite HL, Q1.
      * exfalso. unfold sample_of in E. apply (wf_var _ W) in Q1. destruct Q1 as [_ [Q1|[l [-> Q1]]]].
        -- rewrite Q1 in E. discriminate.
        -- destruct (gs_n s =? 1); [discriminate|]. apply nth_error_None in E. lia.
Qed.
Theorem C05_iteration : forall A (s : gs A), reachable s ->
  exists l, gs_iterate s = Ok l /\ length l = gs_n s /\
    forall i t, nth_error l i = Some t -> gs_extract s (Z.of_nat i) = Ok t.
Proof.
  intros A s R. destruct (iterate_spec s (reachable_wf _ R)) as (l & H1 & H2 & H3).
  exists l. split; auto. split; auto. intros i t E.
  assert (i < gs_n s) by (rewrite <- H2; apply nth_error_Some; congruence).
  destruct (H3 i H) as [t' [E1 E2]]. congruence.
Qed.
Example C05_applies : exists t, gs_extract ex_state 1 = Ok t /\ reads t "b" "x" (Atom 8%Z) /\
  reads t "a" "x" (Atom 5%Z).
Proof. eexists. split; [reflexivity|]. split; reflexivity. Qed.
(** A finding: the extracted sample has lost [fixed_vars], so that setting an existing
    parameter of it raises KeyError. *)
Theorem C05_extracted_state_settable_refuted : exists (s t : gs Z),
  reachable s /\ gs_extract s 0 = Ok t /\
  (exists v, reads t "a" "x" v) /\ snd (gs_set t "a" "x" (Atom 1%Z) false) = Some KeyError.
Proof.
  exists ex_state. eexists. split; [apply ex_state_reachable|]. split; [reflexivity|].
  split; [eexists|]; reflexivity.
Qed.
Print Assumptions C05_extract_single_sample.
Print Assumptions C05_iteration.
Print Assumptions C05_extracted_state_settable_refuted.

(** ** C06 *)
(** The states a user can put in the list: built by calls, or single samples of such. *)
Definition user_state {A} (s : gs A) : Prop :=
  reachable s \/ exists t i, reachable t /\ gs_extract t i = Ok s.
(** One-sample states hold scalars (see the refutation below for vector-valued parameters). *)
Definition scalar_samples {A} (s : gs A) : Prop :=
  gs_n s = 1 -> forall node var v, reads s node var v -> exists a, v = Atom a.
Definition same_param_names {A} (s t : gs A) : Prop :=
  forall x, In x (gs_names s) <-> In x (gs_names t).
(** The entries a state contributes for a parameter: one per sample. *)
Definition contribution {A} (v : value A) : list (value A) :=
  match v with Atom a => [Atom a] | Arr l => l end.

Lemma user_wk : forall A (s : gs A), user_state s -> wk s /\ 1 <= gs_n s /\
  (gs_n s <> 1 -> wf s).
Proof.
  intros A s [R|[t [i [R E]]]].
  - assert (W := reachable_wf _ R). split; auto. split; [apply W|auto].
  - assert (W := reachable_wf _ R). split; [eapply extract_wk; eauto|].
    apply extract_spec in E. destruct E as (_ & E & _). lia.
Qed.
Theorem C06_from_list_concatenates : forall A (l : list (gs A)) s0 l0 order,
  l = s0 :: l0 ->
  (forall s, In s l -> user_state s /\ scalar_samples s /\ same_param_names s0 s) ->
  Permutation order (gs_names s0) ->
  exists r, gs_from_list order l = Ok r /\
    gs_n r = list_sum (map (fun s => gs_n s) l) /\ same_param_names s0 r /\
    forall node var, (exists v, reads s0 node var v) ->
      exists vs, reads r node var (Arr (concat (map contribution vs))) /\
                 Forall2 (fun s v => reads s node var v) l vs.
Proof.
  intros A l s0 l0 order HL HS HP.
  destruct (from_list_spec l s0 l0 order) as (r & H1 & H2 & H3 & H4); auto.
  - intros s HI. destruct (HS s HI) as (U & SC & _). destruct (user_wk _ _ U) as (K & K1 & K2).
    split; auto. split; auto. intros node var v E. destruct (Nat.eq_dec (gs_n s) 1) as [E1|E1].
    + destruct (SC E1 node var v) as [a ->]; [unfold reads; apply reads_look; auto|]. simpl. lia.
    + apply (wf_var _ (K2 E1)) in E. destruct E as [_ [E|[m [-> E]]]]; [congruence|]. exact E.
  - intros s HI x. destruct (HS s HI) as (_ & _ & N). apply N.
  - assert (H0 : wk s0). { apply user_wk. apply HS. subst; left; auto. }
    exists r. split; auto. split; auto. split.
    + intros x. rewrite !In_names by auto. split; intros [node [var [v [Q1 Q2]]]].
      * exists node, var. eexists. split; [|exact Q2]. rewrite H4, Q1. reflexivity.
      * exists node, var. rewrite H4 in Q1. destruct (look s0 node var) as [w|]; [eauto|discriminate].
    + intros node var [v0 Hv]. unfold reads in Hv. apply reads_look in Hv; auto.
      assert (G : forall l', (forall s, In s l' -> In s l) -> exists vs,
         Forall2 (fun s v => reads s node var v) l' vs /\
         flat_map (fun s => col s node var) l' = concat (map contribution vs)).
      { induction l' as [|s l' IH]; intros HI.
        - exists []. split; [constructor|reflexivity].
        - destruct IH as [vs [F1 F2]]; [intros; apply HI; now right|].
          assert (In s l) by (apply HI; now left).
          destruct (HS s H) as (U & _ & N). destruct (user_wk _ _ U) as (K & _).
          destruct (look_nodot _ _ _ _ H0 Hv) as [D1 D2].
          assert (look s node var <> None).
          { apply In_names_look; auto. apply N. apply In_names_look; auto. congruence. }
          destruct (look s node var) as [v|] eqn:E; [|congruence].
          exists (v :: vs). split.
          + constructor; auto. unfold reads. apply reads_look; auto.
          + simpl. rewrite F2. unfold col. rewrite E. destruct v; reflexivity. }
      destruct (G l) as [vs [F1 F2]]; auto. exists vs. split; auto.
      unfold reads. apply reads_look; auto. rewrite H4, Hv. now rewrite F2.
Qed.
Theorem C06_from_list_rejects : forall A (l : list (gs A)) order,
  (l = [] -> gs_from_list order l = Err ValueError) /\
  (forall s0 l0 s, l = s0 :: l0 -> In s l -> ~ same_param_names s0 s ->
     gs_from_list order l = Err ValueError).
Proof.
  intros A l order. split.
  - intros ->. reflexivity.
  - intros s0 l0 s HL HI HN. subst l. unfold gs_from_list.
    destruct (forallb (fun s1 => same_names (gs_names s0) (gs_names s1)) (s0 :: l0)) eqn:E; auto.
    rewrite forallb_forall in E. specialize (E s HI). exfalso. apply HN. unfold same_param_names.
    now apply same_names_iff.
Qed.
(** Splitting into single samples and concatenating gives back the same values. *)
Theorem C06_split_concat : forall A (s : gs A), reachable s -> 2 <= gs_n s ->
  (forall node var l x, reads s node var (Arr l) -> In x l -> exists a, x = Atom a) ->
  exists parts, gs_iterate s = Ok parts /\
    forall order, Permutation order (gs_names s) ->
    exists r, gs_from_list order parts = Ok r /\ gs_n r = gs_n s /\
      forall node var v, reads r node var v <-> reads s node var v.
Proof.
  intros A s R HN HV. assert (W := reachable_wf _ R).
  destruct (split_concat s W HN) as (parts & P1 & P2).
  { intros node var l x E. apply (HV node var). unfold reads. apply reads_look; auto. }
  exists parts. split; auto. intros order HP. destruct (P2 order HP) as (r & Q1 & Wr & Q2 & Q3).
  exists r. split; auto. split; auto.
  intros node var v. unfold reads. rewrite !reads_look by auto. now rewrite Q3.
Qed.
Example C06_applies : exists parts r, gs_iterate ex_state = Ok parts /\
  gs_from_list (gs_names ex_state) parts = Ok r /\
  reads r "a" "y" (Arr [Atom 1%Z; Atom 2%Z; Atom 3%Z]).
Proof. do 2 eexists. split; [vm_compute; reflexivity|]. split; vm_compute; reflexivity. Qed.
(** Findings.  (a) Vector-valued parameters: the split of a two-sample state cannot be put
    together again.  (b) The list of one one-sample state turns its scalar into an array. *)
Theorem C06_vector_parameter_refuted : exists (s : gs Z) parts,
  reachable s /\ gs_n s = 2 /\ gs_iterate s = Ok parts /\
  gs_from_list (gs_names s) parts = Err ValueError.
Proof.
  exists (run (gs_fresh 2) [OSet "a" "x" (Arr [Arr [Atom 1%Z; Atom 2%Z]; Arr [Atom 3%Z; Atom 4%Z]]) false]).
  eexists. split; [eexists 2, _; split; [lia|reflexivity]|]. split; [reflexivity|].
  split; vm_compute; reflexivity.
Qed.
Theorem C06_single_state_refuted : exists (s r : gs Z),
  reachable s /\ gs_from_list (gs_names s) [s] = Ok r /\ gs_n r = gs_n s /\
  reads s "a" "x" (Atom 1%Z) /\ reads r "a" "x" (Arr [Atom 1%Z]).
Proof.
  exists (run (gs_fresh 1) [OSet "a" "x" (Atom 1%Z) false]). eexists.
  split; [eexists 1, _; split; [lia|reflexivity]|]. split; [vm_compute; reflexivity|].
  repeat split; reflexivity.
Qed.
Print Assumptions C06_from_list_concatenates.
Print Assumptions C06_from_list_rejects.
Print Assumptions C06_split_concat.
Print Assumptions C06_vector_parameter_refuted.
Print Assumptions C06_single_state_refuted.

(** ** C07 *)
Theorem C07_dict_round_trip : forall A (s : gs A), reachable s ->
  exists r, gs_from_dict (map (fun kv => (fst kv, DVal (snd kv))) (gs_to_dict s)) (Z.of_nat (gs_n s)) = Ok r /\
    gs_n r = gs_n s /\ forall node var v, reads r node var v <-> reads s node var v.
Proof.
  intros A s R. destruct (dict_roundtrip s (reachable_wf _ R)) as (r & H1 & H2 & H3 & H4).
  exists r. split; auto. split; auto. intros. unfold reads. rewrite !reads_look by auto. now rewrite H4.
Qed.
(** For two or more samples and at least one parameter (a table without columns has no rows). *)
Theorem C07_table_round_trip_partial : forall A (s : gs A), reachable s -> 2 <= gs_n s ->
  (exists node var v, reads s node var v) ->
  exists r, gs_from_table (gs_to_table s) = Ok r /\
    gs_n r = gs_n s /\ forall node var v, reads r node var v <-> reads s node var v.
Proof.
  intros A s R HN [node [var [v HV]]]. unfold reads in HV. apply reads_look in HV; auto.
  destruct (table_roundtrip s (reachable_wf _ R) HN) as [_ (r & H1 & H2 & H3 & H4)]; eauto.
  exists r. split; auto. split; auto. intros. unfold reads. rewrite !reads_look by auto. now rewrite H4.
Qed.
Example C07_applies : reachable ex_state /\ 2 <= gs_n ex_state /\
  map fst (gs_to_dict ex_state) = ["a.x"; "a.y"; "b.x"].
Proof. split; [apply ex_state_reachable|]. split; [vm_compute; lia|reflexivity]. Qed.
(** The missing part fails: an empty state of several samples does not survive. *)
Theorem C07_empty_table_refuted : exists s : gs Z, reachable s /\ gs_n s = 3 /\
  gs_from_table (gs_to_table s) = Err ValueError.
Proof. exists (gs_fresh 3). split; [exists 3, []; split; [lia|reflexivity]|]. split; reflexivity. Qed.
Print Assumptions C07_dict_round_trip.
Print Assumptions C07_table_round_trip_partial.
Print Assumptions C07_empty_table_refuted.

(** ** C08 *)
Theorem C08_full_names_never_collide : forall A (s : gs A) n1 v1 n2 v2 x1 x2, reachable s ->
  reads s n1 v1 x1 -> reads s n2 v2 x2 -> full_name n1 v1 = full_name n2 v2 ->
  n1 = n2 /\ v1 = v2 /\ split_dot (full_name n1 v1) = [n1; v1].
Proof.
  intros A s n1 v1 n2 v2 x1 x2 R H1 H2 E. assert (W := wf_wk _ (reachable_wf _ R)).
  unfold reads in H1, H2. apply reads_look in H1; auto. apply reads_look in H2; auto.
  destruct (look_nodot _ _ _ _ W H1). destruct (look_nodot _ _ _ _ W H2).
  destruct (full_name_inj n1 v1 n2 v2); auto. repeat split; auto. now apply split_full_name.
Qed.
(** Listed names are distinct, and each is the full name of exactly one stored parameter. *)
Theorem C08_names_distinct : forall A (s : gs A), reachable s ->
  NoDup (gs_names s) /\
  forall x, In x (gs_names s) <-> exists node var v, reads s node var v /\ x = full_name node var.
Proof.
  intros A s R. assert (W := wf_wk _ (reachable_wf _ R)). split; [apply NoDup_names; auto|].
  intros x. rewrite In_names by auto. split; intros (node & var & v & H1 & H2);
    exists node, var, v; split; auto; unfold reads in *; now apply reads_look.
Qed.
Print Assumptions C08_full_names_never_collide.
Print Assumptions C08_names_distinct.

(** ** C09 *)
Definition holds_param {A} (s : gs A) (node p : string) : Prop := exists v, reads s node p v.
Lemma holds_iff : forall A (s : gs A) node p, wk s -> (holds_param s node p <-> holds s node p).
Proof.
  intros A s node p W. unfold holds_param, holds, reads. split.
  - intros [v H]. apply reads_look in H; auto. congruence.
  - intros H. destruct (look s node p) as [v|] eqn:E; [|congruence]. exists v. now apply reads_look.
Qed.
(** The dictionary to be returned, entry by entry. *)
Inductive wanted {A} (s : gs A) (params : list string) : string -> value A -> Prop :=
| want_full node p v :            (* requested under its full name *)
    In (full_name node p) params -> reads s node p v -> wanted s params (full_name node p) v
| want_unique node p v :          (* short name held by exactly one node *)
    In p params -> reads s node p v -> (forall node', holds_param s node' p -> node' = node) ->
    wanted s params p v
| want_several node p v n1 n2 :   (* short name held by several nodes *)
    In p params -> reads s node p v -> n1 <> n2 -> holds_param s n1 p -> holds_param s n2 p ->
    wanted s params (full_name node p) v.
Theorem C09_extract_parameters : forall A (s : gs A) params res, reachable s ->
  gs_extract_parameters s params = Ok res ->
  NoDup (dkeys res) /\ forall k v, dget k res = Some v <-> wanted s params k v.
Proof.
  intros A s params res R H. assert (W := wf_wk _ (reachable_wf _ R)).
  destruct (extract_parameters_ok s params res W H) as [H1 H2]. split; auto.
  intros k v. rewrite H2. unfold extracted. split.
  - intros [(node & p & -> & L & [HI|[HI (n1 & n2 & NE & A1 & A2)]])|[HI (node & L & U)]].
    + apply want_full; auto. unfold reads. now apply reads_look.
    + eapply want_several; eauto; try (now apply holds_iff). unfold reads. now apply reads_look.
    + apply want_unique with node; auto; [unfold reads; now apply reads_look|].
      intros n' Hn. apply U. now apply holds_iff.
  - intros [node p x HI L|node p x HI L U|node p x n1 n2 HI L NE A1 A2];
      unfold reads in L; apply reads_look in L; auto.
    + left. exists node, p. auto.
    + right. split; auto. exists node. split; auto. intros n' Hn. apply U. now apply holds_iff.
    + left. exists node, p. split; auto. split; auto. right. split; auto. exists n1, n2.
      rewrite <- !holds_iff by auto. auto.
Qed.
(** It succeeds exactly when every requested parameter exists somewhere. *)
Theorem C09_extract_parameters_succeeds_iff : forall A (s : gs A) params, reachable s ->
  ((exists res, gs_extract_parameters s params = Ok res) <->
   forall k, In k params ->
     (exists node p, k = full_name node p /\ holds_param s node p) \/ (exists node, holds_param s node k)).
Proof.
  intros A s params R. assert (W := wf_wk _ (reachable_wf _ R)).
  rewrite extract_parameters_total by auto. unfold satisfiable. split; intros H k HK;
    destruct (H k HK) as [(node & p & E & Q)|[node Q]].
  - left. exists node, p. split; auto. now apply holds_iff.
  - right. exists node. now apply holds_iff.
  - left. exists node, p. split; auto. now apply holds_iff.
  - right. exists node. now apply holds_iff.
Qed.
(** The exception is KeyError, except for a request with two or more dots. *)
Theorem C09_error_kind : forall A (s : gs A) params e,
  gs_extract_parameters s params = Err e ->
  e = KeyError \/ (e = ValueError /\ exists k, In k params /\ has_dot k = true /\ length (split_dot k) <> 2).
Proof.
  intros A s params e H. unfold gs_extract_parameters in H.
  destruct (fold_res (extract_split s) ([], []) params) as [[single res]|e1] eqn:E.
  - destruct single; [discriminate|].
    destruct (fold_left _ _ _) as [res' fs]. destruct (forallb _ _); inversion H; auto.
  - inversion H; subst e1. clear H. revert E. generalize (@nil string, @nil (string * value A)).
    induction params as [|k params IH]; simpl; intros acc E; [discriminate|].
    destruct (extract_split s acc k) as [acc'|e'] eqn:EX.
    + destruct (IH _ E) as [Q|[Q [k' [Q1 Q2]]]]; auto. right. split; auto. exists k'. auto.
    + inversion E; subst e'. unfold extract_split in EX. destruct (has_dot k) eqn:ED; [|discriminate].
      destruct (split_dot k) as [|n1 [|n2 [|n3 l]]] eqn:ES;
        try (inversion EX; subst; right; split; auto; exists k; rewrite ES; simpl; auto; fail).
      destruct (dget n1 (gs_states s)) as [d|]; [|inversion EX; auto].
      destruct (dget n2 d); inversion EX; auto.
Qed.
Example C09_applies : gs_extract_parameters ex_state ["x"; "a.x"; "y"] =
  Ok [("a.x", Arr [Atom 5%Z; Atom 5%Z; Atom 5%Z]); ("y", Arr [Atom 1%Z; Atom 2%Z; Atom 3%Z]);
      ("b.x", Arr [Atom 7%Z; Atom 8%Z; Atom 9%Z])].
Proof. reflexivity. Qed.
Print Assumptions C09_extract_parameters.
Print Assumptions C09_extract_parameters_succeeds_iff.
Print Assumptions C09_error_kind.

(** ** C10 *)
(** Membership agrees with lookup, once Python's [None] is not counted as a stored value. *)
Theorem C10_contains_iff_lookup : forall A (s : gs A) k, reachable s ->
  (gs_contains s k = Ok true <-> exists it, gs_getitem s k = Ok it /\ it <> INone) /\
  (forall e, gs_getitem s k = Err e -> e = KeyError) /\
  (forall e, gs_contains s k = Err e -> e = KeyError).
Proof.
  intros A s k R. split; [now apply contains_getitem, wf_wk, reachable_wf|]. split; intros e H.
  - unfold gs_getitem in H. destruct (dget k (gs_states s)); [discriminate|].
    destruct (has_dot k).
    + destruct (split_dot k) as [|n1 [|n2 [|n3 l]]]; try (inversion H; auto; fail).
      destruct (dget n1 (gs_states s)) as [d|]; [|inversion H; auto].
      destruct (dget n2 d); inversion H; auto.
    + destruct (gs_states s) as [|[n d] [|p l]]; try (inversion H; auto; fail).
      destruct (dget k d); inversion H.
  - unfold gs_contains in H. destruct (dmem k (gs_states s)); [discriminate|].
    destruct (has_dot k).
    + destruct (split_dot k) as [|n1 [|n2 [|n3 l]]]; inversion H; auto.
    + destruct (gs_states s) as [|[n d] [|p l]]; inversion H.
Qed.
(** "A failed lookup raises KeyError" is false: a state of one node returns None. *)
Theorem C10_missing_key_raises_refuted : exists (s : gs Z) k,
  reachable s /\ gs_contains s k = Ok false /\ gs_getitem s k = Ok INone.
Proof.
  exists (run (gs_fresh 2) [OSet "a" "x" (Atom 1%Z) false]), "y".
  split; [eexists 2, _; split; [lia|reflexivity]|]. split; reflexivity.
Qed.
(** It holds for full names and for states that do not consist of exactly one node. *)
Theorem C10_missing_key_raises_partial : forall A (s : gs A) k, reachable s ->
  has_dot k = true \/ length (gs_states s) <> 1 ->
  gs_contains s k <> Ok true -> gs_getitem s k = Err KeyError.
Proof.
  intros A s k R HC HN. destruct (C10_contains_iff_lookup A s k R) as [H1 [H2 _]].
  destruct (gs_getitem s k) as [it|e] eqn:E; [|f_equal; eauto].
  exfalso. apply HN. apply H1. exists it. split; auto. intros ->.
  unfold gs_getitem in E. destruct (dget k (gs_states s)); [discriminate|].
  destruct (has_dot k) eqn:ED.
  - destruct (split_dot k) as [|n1 [|n2 [|n3 l]]]; try discriminate.
    destruct (dget n1 (gs_states s)) as [d|]; [|discriminate]. destruct (dget n2 d); discriminate.
  - destruct HC as [HC|HC]; [discriminate|].
    destruct (gs_states s) as [|[n d] [|p l]]; try discriminate. simpl in HC. congruence.
Qed.
Example C10_applies : gs_contains ex_state "a.y" = Ok true /\ gs_contains ex_state "a.z" = Ok false /\
  gs_contains ex_state "b" = Ok true.
Proof. repeat split. Qed.
Print Assumptions C10_contains_iff_lookup.
Print Assumptions C10_missing_key_raises_refuted.
Print Assumptions C10_missing_key_raises_partial.

(** ** C11 *)
Theorem C11_update_rejects_mismatch : forall A (s t : gs A) fx,
  gs_n t <> gs_n s -> gs_n t <> 1 -> gs_update s t fx = (s, Some ValueError).
Proof.
  intros A s t fx H1 H2. unfold gs_update.
  assert (E1 : gs_n s =? gs_n t = false) by (apply Nat.eqb_neq; auto).
  assert (E2 : gs_n t =? 1 = false) by (apply Nat.eqb_neq; auto). now rewrite E1, E2.
Qed.
Theorem C11_update_complete : forall A (s t s' : gs A) fx, reachable s -> user_state t ->
  gs_update s t fx = (s', None) ->
  (gs_n t = gs_n s \/ gs_n t = 1) /\ gs_n s' = gs_n s /\
  (forall node var v, reads t node var v -> ~ fixed_in s node var ->
     exists w, expands (gs_n s) v w /\ reads s' node var w) /\
  (forall node var, fixed_in s node var \/ ~ holds_param t node var ->
     forall x, reads s' node var x <-> reads s node var x).
Proof.
  intros A s t s' fx R U H. assert (W := reachable_wf _ R). destruct (user_wk _ _ U) as (Wt & _).
  destruct (update_spec s t fx s' W Wt H) as (W' & HN & HC & HL & HS & _).
  split; [destruct HC; auto|]. split; auto. split.
  - intros node var v HR HF. unfold reads in HR. apply reads_look in HR; auto.
    apply fixed_false in HF. destruct (HS _ _ _ HR HF) as [w Hw]. exists w. split.
    + apply store_value_cases; [apply W|auto].
    + unfold reads. apply reads_look; auto. rewrite HL, HR, HF, Hw. auto.
  - intros node var HC' x. unfold reads. rewrite !reads_look by auto. rewrite HL.
    destruct (look t node var) as [v|] eqn:E; [|tauto]. destruct HC' as [HC'|HC'].
    + apply fixed_iff in HC'. rewrite HC'. tauto.
    + exfalso. apply HC'. exists v. unfold reads. now apply reads_look.
Qed.
(** A matching, well-shaped input is accepted (one-sample inputs holding scalars). *)
Theorem C11_update_accepts : forall A (s t : gs A) fx, reachable s -> user_state t -> scalar_samples t ->
  gs_n t = gs_n s \/ gs_n t = 1 -> exists s', gs_update s t fx = (s', None).
Proof.
  intros A s t fx R U SC HC. assert (W := reachable_wf _ R). destruct (user_wk _ _ U) as (Wt & _ & Wf).
  unfold gs_update.
  assert (E : negb (gs_n s =? gs_n t) && negb (gs_n t =? 1) = false).
  { destruct HC as [->| ->]; [rewrite Nat.eqb_refl|]; simpl; auto. now rewrite andb_false_r. }
  rewrite E. apply set_all_ok; auto. intros [[node var] v] HI. simpl.
  assert (L : look t node var = Some v) by (apply look_In; auto).
  destruct (look_nodot _ _ _ _ Wt L) as [D1 D2]. split; auto. split; auto.
  destruct (Nat.eq_dec (gs_n t) 1) as [E1|E1].
  - destruct (SC E1 node var v) as [a ->]; [unfold reads; apply reads_look; auto|].
    unfold store_value. destruct (gs_n s =? 1); eauto.
  - apply (wf_var _ (Wf E1)) in L. destruct L as [_ L]. exists v. apply store_value_idem.
    destruct HC as [<-|HC]; [auto|congruence].
Qed.
(** A finding: a one-sample vector of the right length is spread over the samples. *)
Theorem C11_vector_spread_refuted : exists (s t s' : gs Z),
  reachable s /\ reachable t /\ gs_n t = 1 /\ gs_n s = 2 /\ gs_update s t false = (s', None) /\
  reads t "a" "x" (Arr [Atom 1%Z; Atom 2%Z]) /\ reads s' "a" "x" (Arr [Atom 1%Z; Atom 2%Z]).
Proof.
  exists (gs_fresh 2), (run (gs_fresh 1) [OSet "a" "x" (Arr [Atom 1%Z; Atom 2%Z]) false]). eexists.
  split; [exists 2, []; split; [lia|reflexivity]|].
  split; [eexists 1, _; split; [lia|reflexivity]|]. repeat split; reflexivity.
Qed.
Example C11_applies : exists s', gs_update ex_state
   (run (gs_fresh 1) [OSet "a" "x" (Atom 1%Z) false; OSet "a" "y" (Atom 1%Z) false]) false = (s', None) /\
   reads s' "a" "x" (Arr [Atom 1%Z; Atom 1%Z; Atom 1%Z]) /\
   reads s' "a" "y" (Arr [Atom 1%Z; Atom 2%Z; Atom 3%Z]).
Proof. eexists. split; [reflexivity|]. split; reflexivity. Qed.
Print Assumptions C11_update_rejects_mismatch.
Print Assumptions C11_update_complete.
Print Assumptions C11_update_accepts.
Print Assumptions C11_vector_spread_refuted.

(** ** C12 *)
(** Every array referenced by the state exists. *)
Definition arrays_exist {A} (h : heap A) (s : hstate A) : Prop :=
  forall node d k p, In (node, d) (h_st s) -> In (k, HRef p) d -> p < length h.
Theorem C12_copy_equal : forall A (h : heap A) (s : hstate A) h' c,
  h_n s <> 1 -> arrays_exist h s -> hcopy h s = (h', c) ->
  h_n c = h_n s /\ (forall node var, hsee h' c node var = hsee h s node var) /\
  (forall node var, hsee h' s node var = hsee h s node var).
Proof.
  intros A h s h' c HN HE H.
  destruct (hcopy_spec h s h' c HN) as (P1 & P2 & P3 & P4 & P5 & P6); auto.
  { intros node d k v H1 H2. destruct v; simpl; eauto. }
  split; auto. split; auto. intros. eapply see_agree; eauto.
  intros nd vr v Hv. unfold hlook in Hv. destruct (dget nd (h_st s)) as [d|] eqn:E; [|discriminate].
  destruct v; simpl; auto. eapply HE; eauto using dget_In.
Qed.
(** In any interleaved history of array writes and [set] calls through either state, a step through
    one of them changes nothing that can be read through the other. *)
Theorem C12_copy_independent : forall A (h : heap A) (s : hstate A) h0 c ops h1 s1 c1,
  h_n s <> 1 -> arrays_exist h s -> hcopy h s = (h0, c) ->
  hrun2 (h0, s, c) ops = (h1, s1, c1) ->
  (forall o h2 c2, hstep (h1, c1) o = (h2, c2) ->
     forall node var, hsee h2 s1 node var = hsee h1 s1 node var) /\
  (forall o h2 s2, hstep (h1, s1) o = (h2, s2) ->
     forall node var, hsee h2 c1 node var = hsee h1 c1 node var).
Proof.
  intros A h s h0 c ops h1 s1 c1 HN HE HC HR.
  assert (AP : apart h1 s1 c1).
  { eapply hrun2_apart; [|exact HR]. eapply hcopy_apart; eauto.
    intros node d k v H1 H2. destruct v; simpl; eauto. }
  split.
  - intros o h2 c2 H. now apply (step_apart h1 s1 c1 o h2 c2).
  - intros o h2 s2 H. apply apart_sym in AP. now apply (step_apart h1 c1 s1 o h2 s2).
Qed.
Definition ex_h : heap Z := [[1; 2]%Z; [3; 4]%Z].
Definition ex_hs : hstate Z := mkH 2 [("a", [("x", HRef 0); ("y", HRef 1)])].
Example C12_applies : h_n ex_hs <> 1 /\ arrays_exist ex_h ex_hs.
Proof.
  split; [discriminate|]. intros node d k p H1 H2. simpl in H1.
  destruct H1 as [H1|[]]. inversion H1; subst. simpl in H2.
  destruct H2 as [H2|[H2|[]]]; inversion H2; simpl; lia.
Qed.
(** With one sample the copy shares its arrays with the original (the [num_samples == 1]
    branch), and [force_copy=True] does not copy either. *)
Theorem C12_one_sample_refuted : exists (h : heap Z) (s : hstate Z) h' c,
  arrays_exist h s /\ hcopy h s = (h', c) /\
  hsee (hwrite h' c "a" "x" 0 9%Z) s "a" "x" <> hsee h' s "a" "x".
Proof.
  exists [[1; 2]%Z], (mkH 1 [("a", [("x", HRef 0)])]). do 2 eexists. split; [|split; [reflexivity|]].
  - intros node d k p H1 H2. simpl in H1. destruct H1 as [H1|[]]. inversion H1; subst.
    destruct H2 as [H2|[]]; inversion H2; simpl; lia.
  - vm_compute. discriminate.
Qed.
Theorem C12_force_copy_refuted : exists (h : heap Z) s h' s',
  hset h s "a" "x" (ArgArray 0) true = (h', s') /\
  hsee (set_nth 0 [9; 9]%Z h') s' "a" "x" <> hsee h' s' "a" "x".
Proof.
  exists [[1; 2]%Z], (mkH 1 []). do 2 eexists. split; [reflexivity|]. vm_compute. discriminate.
Qed.
(** With two or more samples [force_copy=True] protects the state from later writes to the
    caller's array. *)
Theorem C12_force_copy : forall A (h : heap A) s node var p h' s' l,
  h_n s <> 1 -> p < length h -> hset h s node var (ArgArray p) true = (h', s') ->
  length (nth p h []) = h_n s ->
  hsee (set_nth p l h') s' node var = Some (nth p h []).
Proof.
  intros A h s node var p h' s' l HN HP H HL. unfold hset, hstore in H.
  apply Nat.eqb_neq in HN. rewrite HN, HL, Nat.eqb_refl in H. unfold halloc in H.
  inversion H; subst. unfold hsee. rewrite look_set, !String.eqb_refl. simpl. f_equal.
  rewrite set_nth_other by lia. rewrite app_nth2 by lia. now rewrite Nat.sub_diag.
Qed.
Print Assumptions C12_copy_equal.
Print Assumptions C12_copy_independent.
Print Assumptions C12_one_sample_refuted.
Print Assumptions C12_force_copy_refuted.
Print Assumptions C12_force_copy.

(** ** C13 *)
Theorem C13_transpose : forall V (d : dict (list V)) n out, NoDup (dkeys d) ->
  transpose_dict_of_list d n = Ok out ->
  length out = Z.to_nat n /\
  forall i o, nth_error out i = Some o ->
    forall k, dget k o = match dget k d with Some l => nth_error l i | None => None end.
Proof.
  intros V d n out ND H. unfold transpose_dict_of_list in H.
  destruct (n <? 1)%Z eqn:E; [discriminate|].
  destruct (transpose_fold V (Z.to_nat n) d _ out (repeat_length _ _) ND H) as (H1 & H2 & H3).
  split; auto. intros i o HO k.
  assert (HI : i < Z.to_nat n) by (rewrite <- H1; apply nth_error_Some; congruence).
  assert (HR : nth_error (repeat (@nil (string * V)) (Z.to_nat n)) i = Some []).
  { apply nth_error_repeat. auto. }
  destruct (H3 i [] HR) as [o' [E1 E2]]. assert (o' = o) by congruence. subst. rewrite E2. simpl.
  destruct (dget k d); reflexivity.
Qed.
Theorem C13_transpose_raises_iff : forall V (d : dict (list V)) n,
  ((exists e, transpose_dict_of_list d n = Err e) <->
   (n < 1)%Z \/ exists k l, In (k, l) d /\ length l <> Z.to_nat n) /\
  (forall e, transpose_dict_of_list d n = Err e -> e = ValueError).
Proof.
  intros V d n. unfold transpose_dict_of_list. destruct (n <? 1)%Z eqn:E.
  - apply Z.ltb_lt in E. split; [split; eauto|]. intros e H; inversion H; auto.
  - apply Z.ltb_ge in E. split; [split|].
    + intros [e H]. right. now apply transpose_fold_err in H.
    + intros [H|(k & l & H1 & H2)]; [lia|].
      destruct (fold_res _ _ d) as [out|e] eqn:EF; [|eauto]. exfalso.
      revert EF H1. generalize (repeat (@nil (string * V)) (Z.to_nat n)).
      induction d as [|[k0 l0] d IH]; simpl; intros out0 EF H1; [tauto|].
      destruct (transpose_step (Z.to_nat n) out0 (k0, l0)) as [o1|] eqn:ES; [|discriminate].
      destruct H1 as [H1|H1]; [|eauto].
      inversion H1; subst. unfold transpose_step in ES. simpl in ES.
      apply Nat.eqb_neq in H2. rewrite H2 in ES. discriminate.
    + intros e H. now apply transpose_fold_err in H.
Qed.
Example C13_applies : transpose_dict_of_list [("x", [1; 2]%Z); ("y", [3; 4]%Z)] 2 =
  Ok [[("x", 1%Z); ("y", 3%Z)]; [("x", 2%Z); ("y", 4%Z)]].
Proof. reflexivity. Qed.
Print Assumptions C13_transpose.
Print Assumptions C13_transpose_raises_iff.

(** ** C14 *)
(** All values are numbers or 1-d arrays of numbers. *)
Definition numeric (s : gs Q) : Prop :=
  forall node var v, reads s node var v -> flat_of v <> None.
Theorem C14_eq_reflexive : forall s : gs Q, reachable s -> numeric s -> gs_eq s s = Ok true.
Proof.
  intros s R HN. assert (W := reachable_wf _ R). unfold gs_eq. rewrite !Nat.eqb_refl. simpl.
  rewrite (eq_states_refl (gs_states s) (gs_states s)).
  - f_equal. apply fixed_eq_refl. rewrite (wf_keys _ W). apply W.
  - apply W.
  - intros k d H. apply In_dget; auto. apply W.
  - intros k d H. apply (wf_node _ W k). auto.
  - intros k d p v H1 H2. apply (HN k p). unfold reads. apply reads_look; auto. unfold look. now rewrite H1.
Qed.
(** Same contents up to numpy's tolerance. *)
Theorem C14_eq_sound : forall s t : gs Q, reachable s -> reachable t -> gs_eq s t = Ok true ->
  gs_n s = gs_n t /\ same_param_names s t /\
  (forall node var, fixed_in s node var <-> fixed_in t node var) /\
  (forall node var v, reads s node var v ->
     exists w, reads t node var w /\ allclose v w = Ok true).
Proof.
  intros s t Rs Rt H. assert (Ws := reachable_wf _ Rs). assert (Wt := reachable_wf _ Rt).
  destruct (gs_eq_sound s t (wf_wk _ Ws) (wf_wk _ Wt) H) as (H1 & H2 & H3 & H4 & H5).
  split; auto. split; [|split].
  - intros x. rewrite !In_names by auto. split; intros (node & var & v & E & ->).
    + destruct (H4 _ _ _ E) as [w [E' _]]. eauto 6.
    + destruct (H5 _ _ _ E) as [w E']. eauto 6.
  - destruct (fixed_eq_sound (gs_fixed s) (gs_fixed t)) as [K1 K2]; auto.
    { rewrite (wf_keys _ Ws). apply Ws. }
    intros node var. unfold fixed_in. split; intros (l & E & HI).
    + destruct (K2 _ _ E) as (l2 & E2 & I2). exists l2. split; auto. now apply I2.
    + destruct (dget node (gs_fixed s)) as [l1|] eqn:E1.
      * destruct (K2 _ _ E1) as (l2 & E2 & I2). exists l1. split; auto. apply I2. congruence.
      * apply dget_None in E1. exfalso. apply E1. apply K1. apply dget_keys. congruence.
  - intros node var v E. unfold reads in E. apply reads_look in E; auto.
    destruct (H4 _ _ _ E) as [w [E1 E2]]. exists w. split; auto. unfold reads. apply reads_look; auto.
Qed.
Theorem C14_eq_symmetric_refuted : exists s t : gs Q, reachable s /\ reachable t /\
  gs_eq s t = Ok false /\ gs_eq t s = Ok true.
Proof.
  (* |a - b| = 1/1000 + 1e-8 lies between the two tolerances 1e-8 + 1e-5*|b| *)
  exists (run (gs_fresh 1) [OSet "a" "x" (Atom (100 + (1#1000) + (1#100000000) + (1#1000000000))%Q) false]),
         (run (gs_fresh 1) [OSet "a" "x" (Atom (100)%Q) false]).
  split; [eexists 1, _; split; [lia|reflexivity]|].
  split; [eexists 1, _; split; [lia|reflexivity]|]. split; vm_compute; reflexivity.
Qed.
(** [==] also identifies a scalar with an array, by broadcasting. *)
Theorem C14_eq_distinguishes_shapes_refuted : exists s t : gs Q, reachable s /\ reachable t /\
  gs_eq s t = Ok true /\ reads s "a" "x" (Atom 1%Q) /\ reads t "a" "x" (Arr [Atom 1%Q; Atom 1%Q]).
Proof.
  exists (run (gs_fresh 1) [OSet "a" "x" (Atom 1%Q) false]),
         (run (gs_fresh 1) [OSet "a" "x" (Arr [Atom 1%Q; Atom 1%Q]) false]).
  split; [eexists 1, _; split; [lia|reflexivity]|].
  split; [eexists 1, _; split; [lia|reflexivity]|]. repeat split; vm_compute; reflexivity.
Qed.
Example C14_applies : numeric (run (gs_fresh 2) [OSet "a" "x" (Atom 1%Q) false; OSet "b" "x" (Atom 2%Q) true]) /\
  reachable (run (gs_fresh 2) [OSet "a" "x" (Atom 1%Q) false; OSet "b" "x" (Atom 2%Q) true]).
Proof.
  assert (R : reachable (run (gs_fresh 2) [OSet "a" "x" (Atom 1%Q) false; OSet "b" "x" (Atom 2%Q) true]))
    by (eexists 2, _; split; [lia|reflexivity]).
  split; auto. intros node var v H. unfold reads in H. apply reads_look in H; auto.
  apply look_In in H; auto. vm_compute in H. destruct H as [H|[H|[]]]; inversion H; discriminate.
Qed.
Print Assumptions C14_eq_reflexive.
Print Assumptions C14_eq_sound.
Print Assumptions C14_eq_symmetric_refuted.
Print Assumptions C14_eq_distinguishes_shapes_refuted.
