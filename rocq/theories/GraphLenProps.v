(** Property C04, exactly: by how much the length of a GraphState exceeds the number of its parameters. *)
From Coq Require Import String ZArith List Bool Arith Lia Permutation.
From Verif Require Import Base BaseFacts GraphStateModel GraphStateProofs GraphStateProofs2 GraphStateProofs3 GraphStateProofs4 GraphStateProps.
Import ListNotations.
Open Scope string_scope.
Open Scope list_scope.
Open Scope nat_scope.

Section Len.
Context {A : Type}.
(** ** Specification *)
(** The parameters an operation sets, in order. *)
Definition settings (s : gs A) (o : op A) : list (string * string * value A) :=
  match o with
  | OSet node var v _ => [(node, var, v)]
  | OUpdateDict inputs _ => entries inputs
  | OUpdate inputs _ => if negb (gs_n s =? gs_n inputs) && negb (gs_n inputs =? 1) then [] else entries (gs_states inputs)
  end.
Definition marks (o : op A) : bool := match o with OSet _ _ _ f => f | OUpdateDict _ f => f | OUpdate _ f => f end.
Definition sets_of (o : op A) (l : list (string * string * value A)) : list (op A) :=
  map (fun e => OSet (fst (fst e)) (snd (fst e)) (snd e) (marks o)) l.
(** The operation stopped with an exception at a parameter, with a name that is allowed, that the state did not hold
    (the value had the wrong length). *)
Definition wasted (s : gs A) (o : op A) : Prop :=
  exists pre node var v post, settings s o = pre ++ (node, var, v) :: post /\ run_clean s (sets_of o pre) /\
    has_dot node = false /\ has_dot var = false /\
    snd (apply_op (run s (sets_of o pre)) (OSet node var v (marks o))) <> None /\
    forall u, ~ reads (run s (sets_of o pre)) node var u.
(** The number of such operations in a history. *)
Inductive wasted_in : gs A -> list (op A) -> nat -> Prop :=
| waste_nil : forall s, wasted_in s [] 0
| waste_hit : forall s o l k, wasted s o -> wasted_in (fst (apply_op s o)) l k -> wasted_in s (o :: l) (S k)
| waste_miss : forall s o l k, ~ wasted s o -> wasted_in (fst (apply_op s o)) l k -> wasted_in s (o :: l) k.

(** ** Proofs *)
Lemma set_any : forall n np np2 st f node var v fx,
  gs_states (fst (gs_set (mkGS n np st f) node var v fx)) = gs_states (fst (gs_set (mkGS n np2 st f) node var v fx)) /\
  snd (gs_set (mkGS n np st f) node var v fx) = snd (@gs_set A (mkGS n np2 st f) node var v fx).
Proof.
  intros. unfold gs_set. cbn [gs_n gs_np gs_states gs_fixed]. destruct (has_dot node || has_dot var); [auto|]. cbv zeta.
  destruct (dget node _) as [fx0|]; [|auto]. destruct (smem var fx0); [auto|]. destruct (store_value n v); auto.
Qed.
Lemma wf_np : forall (s : gs A) np, wf s -> wf (mkGS (gs_n s) np (gs_states s) (gs_fixed s)).
Proof. intros s np [H1 H2 H3 H4 H5 H6]. constructor; auto. Qed.
Lemma count_look : forall s s' : gs A, wf s -> wf s' -> (forall nd vr, look s' nd vr = look s nd vr) -> count (gs_states s') = count (gs_states s).
Proof.
  intros s s' W W' HL.
  assert (K : forall t : gs A, wk t -> forall p, In p (map fst (entries (gs_states t))) <-> look t (fst p) (snd p) <> None).
  { intros t Wt [a b]. simpl. rewrite in_map_iff. split.
    - intros [[[a' b'] u] [E HI]]. simpl in E. inversion E; subst. apply look_In in HI; auto. congruence.
    - destruct (look t a b) eqn:E; [|congruence]. intros _. exists (a, b, v). split; auto. apply look_In; auto. }
  unfold count. rewrite <- (map_length fst (entries (gs_states s))), <- (map_length fst (entries (gs_states s'))).
  apply Permutation_length. apply NoDup_Permutation; [now apply NoDup_entries_keys, wf_wk..|].
  intros [a b]. rewrite !K by (apply wf_wk; auto). simpl. now rewrite HL.
Qed.
(** One [set]: the surplus grows exactly when it raises for a new allowed name. *)
Lemma set_surplus : forall (s s' : gs A) node var v fx r, wf s -> gs_set s node var v fx = (s', r) ->
  gs_np s' + count (gs_states s) = gs_np s + count (gs_states s') +
    match r with
    | None => 0
    | Some _ => if has_dot node || has_dot var then 0 else match look s node var with Some _ => 0 | None => 1 end
    end.
Proof.
  intros s s' node var v fx r W H. pose proof (set_spec _ _ _ _ _ _ _ W H) as (W' & _ & _ & HD & HL & _ & _ & HP). destruct r as [e|].
  - rewrite (count_look s s' W W' HL), HP. destruct (has_dot node || has_dot var); [lia|]. destruct (look s node var); lia.
  - destruct s as [n np st f]. cbn [gs_np gs_states] in *.
    pose proof (set_any n np (count st) st f node var v fx) as [E1 E2]. rewrite H in E1, E2. cbn [fst snd] in E1, E2.
    destruct (gs_set (mkGS n (count st) st f) node var v fx) as [s2 r2] eqn:H2. cbn [fst snd] in E1, E2. subst r2.
    pose proof (wf_np _ (count st) W) as W2. cbn [gs_n gs_states gs_fixed] in W2.
    pose proof (set_count _ _ _ _ _ _ W2 H2 eq_refl) as C. rewrite <- E1 in C.
    pose proof (set_spec _ _ _ _ _ _ _ W2 H2) as (_ & _ & _ & _ & _ & _ & _ & HP2). cbn [gs_np] in HP2.
    change (look (mkGS n (count st) st f) node var) with (look (mkGS n np st f) node var) in HP2. rewrite <- C, HP, HP2.
    destruct (has_dot node || has_dot var); [lia|]. destruct (look (mkGS n np st f) node var); lia.
Qed.
Lemma reads_none : forall (s : gs A) node var, wk s -> has_dot node = false -> has_dot var = false -> ((forall u, ~ reads s node var u) <-> look s node var = None).
Proof.
  intros s node var W D1 D2. split.
  - intros H. destruct (look s node var) as [u|] eqn:E; auto. exfalso. apply (H u). apply reads_look; auto.
  - intros E u H. apply reads_look in H; auto. congruence.
Qed.
Definition stops (s : gs A) (l : list (string * string * value A)) (f : bool) : Prop :=
  exists pre node var v post, l = pre ++ (node, var, v) :: post /\
    run_clean s (map (fun e => OSet (fst (fst e)) (snd (fst e)) (snd e) f) pre) /\
    has_dot node = false /\ has_dot var = false /\
    let s1 := run s (map (fun e => OSet (fst (fst e)) (snd (fst e)) (snd e) f) pre) in
    snd (gs_set s1 node var v f) <> None /\ forall u, ~ reads s1 node var u.
Lemma all_surplus : forall l (s s' : gs A) f r, wf s -> gs_set_all s l f = (s', r) -> wf s' /\
  ((stops s l f /\ gs_np s' + count (gs_states s) = S (gs_np s + count (gs_states s'))) \/
   (~ stops s l f /\ gs_np s' + count (gs_states s) = gs_np s + count (gs_states s'))).
Proof.
  induction l as [|[[node var] v] l IH]; intros s s' f r W H.
  - cbn in H. injection H as <- <-. split; [exact W|]. right. split; [|lia]. intros (pre & nd & vr & u & post & E & _). destruct pre; discriminate.
  - cbn [gs_set_all] in H. destruct (gs_set s node var v f) as [s1 [e|]] eqn:E1.
    + injection H as <- <-. pose proof (set_surplus _ _ _ _ _ _ _ W E1) as SU; lazy iota in SU. pose proof (set_spec _ _ _ _ _ _ _ W E1) as (W1 & _).
      split; [exact W1|]. destruct (has_dot node || has_dot var) eqn:ED; [|destruct (look s node var) eqn:EL]; lazy iota in SU; rewrite ?Nat.add_0_r, ?Nat.add_1_r in SU.
      1,2: right; split; [|lia]; intros (pre & nd & vr & u & post & E & RC & D1 & D2 & X & Y); destruct pre as [|p pre];
        [injection E as <- <- <- <-; cbn in Y|injection E as <- E; cbn in RC; rewrite E1 in RC; destruct RC as [RC _]; discriminate].
      * rewrite D1, D2 in ED. discriminate.
      * apply (reads_none s node var) in Y; auto using wf_wk. congruence.
      * left. split; [|lia]. apply orb_false_iff in ED. destruct ED as [D1 D2]. exists [], node, var, v, l. cbn. split; [reflexivity|]. split; [exact I|].
        split; [exact D1|]. split; [exact D2|]. rewrite E1. split; [cbn; congruence|]. apply (reads_none s node var); auto using wf_wk.
    + pose proof (set_surplus _ _ _ _ _ _ _ W E1) as SU; lazy iota in SU. pose proof (set_spec _ _ _ _ _ _ _ W E1) as (W1 & _).
      destruct (IH s1 s' f r W1 H) as [W' [[ST E]|[NS E]]]; (split; [exact W'|]).
      * left. split; [|lia]. destruct ST as (pre & nd & vr & u & post & -> & RC & D1 & D2 & X & Y). exists ((node, var, v) :: pre), nd, vr, u, post.
        cbn [map run_clean fst snd apply_op]. unfold run. cbn [fold_left apply_op fst snd]. rewrite E1. cbn [fst snd]. unfold run in *. repeat split; auto.
      * right. split; [|lia]. intros (pre & nd & vr & u & post & EL & RC & D1 & D2 & X & Y). apply NS. destruct pre as [|p pre].
        -- injection EL as <- <- <- <-. cbn in X. rewrite E1 in X. now destruct X.
        -- injection EL as <- EL. exists pre, nd, vr, u, post. cbn [map run_clean fst snd apply_op] in RC. rewrite E1 in RC. cbn [fst snd] in RC.
           unfold run in *. cbn [map fold_left apply_op fst snd] in X, Y. rewrite E1 in X, Y. cbn [fst snd] in X, Y. destruct RC as [_ RC]. repeat split; auto.
Qed.
Lemma op_all : forall (s : gs A) o, wf s -> exists l, settings s o = l /\ fst (apply_op s o) = fst (gs_set_all s l (marks o)).
Proof.
  intros s o W. eexists. split; [reflexivity|]. destruct o as [node var v f|inputs f|inputs f]; cbn [settings marks apply_op].
  - cbn [gs_set_all]. destruct (gs_set s node var v f) as [s1 [e|]]; reflexivity.
  - reflexivity.
  - unfold gs_update. destruct (_ && _); reflexivity.
Qed.
Lemma op_surplus : forall (s : gs A) o, wf s -> let s' := fst (apply_op s o) in wf s' /\
  ((wasted s o /\ gs_np s' + count (gs_states s) = S (gs_np s + count (gs_states s'))) \/
   (~ wasted s o /\ gs_np s' + count (gs_states s) = gs_np s + count (gs_states s'))).
Proof.
  intros s o W. destruct (op_all s o W) as (l & ES & ->). cbv zeta. destruct (gs_set_all s l (marks o)) as [s' r] eqn:E. cbn [fst].
  destruct (all_surplus _ _ _ _ _ W E) as [W' H]. split; [exact W'|]. unfold wasted. rewrite ES. exact H.
Qed.
Lemma run_surplus : forall ops (s : gs A), wf s -> exists k, wasted_in s ops k /\
  gs_np (run s ops) + count (gs_states s) = gs_np s + count (gs_states (run s ops)) + k.
Proof.
  induction ops as [|o ops IH]; intros s W; [exists 0; split; [constructor|cbn; lia]|].
  destruct (op_surplus s o W) as [W' H]. destruct (IH _ W') as (k & WK & EK).
  change (run s (o :: ops)) with (run (fst (apply_op s o)) ops). destruct H as [[WS E]|[NW E]].
  - exists (S k). split; [now apply waste_hit|lia].
  - exists k. split; [now apply waste_miss|lia].
Qed.
Lemma wasted_unique : forall ops (s : gs A) k k', wasted_in s ops k -> wasted_in s ops k' -> k = k'.
Proof.
  induction ops as [|o ops IH]; intros s k k' H H'; inversion H; subst; inversion H'; subst; try contradiction; eauto.
Qed.

(** ** Theorem *)
(** After any history of set and update calls, exceptions caught, the length of the state is the number of its parameters
    plus the number of calls that stopped with an exception at a new parameter. *)
Theorem C04_len_exact : forall n (ops : list (op A)), 1 <= n ->
  exists k, (forall k', wasted_in (gs_fresh n) ops k' <-> k' = k) /\
    gs_len (run (gs_fresh n) ops) = length (gs_names (run (gs_fresh n) ops)) + k.
Proof.
  intros n ops HN. destruct (run_surplus ops (gs_fresh n) (wf_fresh n HN)) as (k & WK & E). exists k. split.
  - intros k'. split; [intros H; eapply wasted_unique; eauto|intros ->; exact WK].
  - unfold gs_len. rewrite gs_names_entries, map_length. unfold count in E. cbn in E. lia.
Qed.
End Len.
(** Three failed calls, one for a name that is held already: two are counted. *)
Example C04_exact_case : let ops := [OSet "a" "x" (Atom 1%Z) false; OSet "a" "x" (Arr [Atom 1%Z]) false; OSet "a" "y" (Arr [Atom 1%Z]) false;
    OSet "a" "y" (Arr [Atom 1%Z]) false] in
  gs_len (run (gs_fresh 2) ops) = 3 /\ length (gs_names (run (gs_fresh 2) ops)) = 1.
Proof. vm_compute. auto. Qed.
