(** C109, sampling: models in which a parameter is computed from other parameters of the same model by a function node of its own, such as
    the distance from the redshift (src/lightcurvelynx/models/physical_model.py 81-89).  The nodes then depend on each other in a circle,
    which C103 excludes; the order of the parameters decides. *)
From Coq Require Import String Ascii List Bool Arith ZArith Lia Relations.
From Verif Require Import Base BaseFacts Numerals GraphStateModel GraphStateProofs GraphStateProofs2 GraphStateProofs4 GraphStateProps
  NodeGraphModel NodeGraphProofs NodeSampleProofs NodeSampleProofs2 NodeGraphProps NodeDepProps NodeRunProps.
Import ListNotations.
Open Scope string_scope.
Open Scope list_scope.
Open Scope nat_scope.
#[local] Hint Resolve wf_wk reachable_wf : core.

(** ** Specification *)
(** [owner j = Some i]: node [j] serves node [i] only.  No other node depends on [j], and what [j] takes from [i] are parameters that come,
    among the parameters of [i], before every one that depends on [j], and are not computed by the function of [i]. *)
Definition serves {A} (h : nheap A) (owner : nat -> option nat) : Prop :=
  forall j i, owner j = Some i ->
    (forall k, depends h k j -> k = i) /\
    forall nj ni a s, nth_error h j = Some nj -> nth_error h i = Some ni -> In (a, s) (nd_setters nj) -> st_dep s = Some i ->
      forall l1 name s' l2, nd_setters ni = l1 ++ (name, s') :: l2 -> st_dep s' = Some j ->
        exists s0, In (st_src s, s0) l1 /\ st_type s0 <> SCompute.
(** Apart from what nodes take from the nodes they serve, nothing depends on itself. *)
Definition layered {A} (h : nheap A) (owner : nat -> option nat) : Prop :=
  exists rank : nat -> nat, (forall i j, depends h i j -> rank j < rank i \/ owner i = Some j) /\
    (forall j i, owner j = Some i -> rank j < rank i).

(** ** Proofs *)
Section P.
Context {A W : Type}.
Variable func : W -> nat -> dict (value A) -> W * result (value A).
Variable fine : W -> Prop.
Variable good : nat -> string -> value A -> Prop.
Notation sm := (sm A W).

Variables (h : nheap A) (num : nat) (R : nat -> Prop).
Hypothesis NUM : 1 <= num.
Hypothesis RUNS : forall k n, R k -> nth_error h k = Some n -> node_runs func fine good h num k n.
Hypothesis WF : well_formed h.
Hypothesis CLOSED : forall k j, R k -> depends h k j -> R j.
Hypothesis EXISTS : forall k, R k -> exists n, nth_error h k = Some n.
Hypothesis DISTINCT : forall k1 k2 n1 n2, R k1 -> R k2 -> nth_error h k1 = Some n1 -> nth_error h k2 = Some n2 ->
  nd_str n1 = nd_str n2 -> k1 = k2.
Variables (rank : nat -> nat) (owner : nat -> option nat).
Hypothesis RANK : forall i j, depends h i j -> rank j < rank i \/ owner i = Some j.
Hypothesis OWNED : forall j i, owner j = Some i -> rank j < rank i.
Hypothesis SERVES : serves h owner.
Notation inv := (inv fine good h num R).
Notation filled := (filled h).
(** A node may be entered if the node it serves has been entered and what it takes from it is known. *)
Definition ready (m : sm) (j : nat) : Prop := forall i ni nj, owner j = Some i -> nth_error h i = Some ni -> nth_error h j = Some nj ->
  dget (nd_str ni) (sm_seen m) = Some i /\
  forall a s, In (a, s) (nd_setters nj) -> st_dep s = Some i -> look (sm_gs m) (nd_str ni) (st_src s) <> None.
Lemma ready_later : forall (m m' : sm) j, ready m j -> kept (sm_gs m) (sm_gs m') ->
  (forall str x, dget str (sm_seen m) = Some x -> dget str (sm_seen m') = Some x) -> ready m' j.
Proof.
  intros m m' j RD K S i ni nj O Ei Ej. destruct (RD i ni nj O Ei Ej) as [A1 A2]. split; auto. intros a s IN D. apply K. eapply A2; eauto.
Qed.
Definition ok_step (stack : list nat) (f : nat) : Prop := forall (m : sm) j, inv stack m -> R j -> (forall k, In k stack -> rank j < rank k) -> ready m j ->
  exists m', sample_helper func f h m j = Ok m' /\ inv stack m' /\ kept (sm_gs m) (sm_gs m') /\
    (forall str x, dget str (sm_seen m) = Some x -> dget str (sm_seen m') = Some x) /\
    (exists n, nth_error h j = Some n /\ dget (nd_str n) (sm_seen m') = Some j).

(** The loop over the parameters of one node. *)
Lemma params_ok : forall stack f i n, R i -> nth_error h i = Some n -> In i stack -> ok_step stack f -> 1 <= f ->
  (forall k, In k stack -> k = i \/ rank i < rank k) ->
  forall todo doing (m : sm), nd_setters n = doing ++ todo -> inv stack m -> ready m i -> dget (nd_str n) (sm_seen m) = Some i ->
  (forall name s, In (name, s) doing -> st_type s <> SCompute -> look (sm_gs m) (nd_str n) name <> None) ->
  exists m', fold_res (sample_param (sample_helper func f h) h i n) m todo = Ok m' /\ inv stack m' /\ kept (sm_gs m) (sm_gs m') /\
    (forall str x, dget str (sm_seen m) = Some x -> dget str (sm_seen m') = Some x) /\
    (forall name s, In (name, s) (nd_setters n) -> st_type s <> SCompute -> look (sm_gs m') (nd_str n) name <> None).
Proof.
  intros stack f i n Hi En IS OK F1 RK. induction todo as [|[name s] todo IH]; intros doing m ED I RD SI F.
  - rewrite app_nil_r in ED. simpl. exists m. split; auto. split; auto. split; [apply kept_refl|]. split; auto. now rewrite ED.
  - destruct (RUNS i n Hi En) as (D1 & HP & _).
    assert (IN : In (name, s) (nd_setters n)) by (rewrite ED; apply in_app_iff; right; now left).
    destruct (HP name s IN) as (D2 & HT).
    (* the node it depends on *)
    assert (DEP : exists m1, (match st_dep s with Some j => if j =? i then Ok m else sample_helper func f h m j | None => Ok m end) = Ok m1 /\
       inv stack m1 /\ kept (sm_gs m) (sm_gs m1) /\ (forall str x, dget str (sm_seen m) = Some x -> dget str (sm_seen m1) = Some x) /\
       (forall j d, st_dep s = Some j -> j <> i -> nth_error h j = Some d -> R j /\ (In (st_src s) (map fst (nd_setters d)) -> look (sm_gs m1) (nd_str d) (st_src s) <> None))).
    { destruct (st_dep s) as [j|] eqn:EJ.
      2:{ exists m. split; auto. split; auto. split; [apply kept_refl|]. split; auto. intros; discriminate. }
      destruct (j =? i) eqn:EQ.
      - apply Nat.eqb_eq in EQ. subst. exists m. split; auto. split; auto. split; [apply kept_refl|]. split; auto.
        intros j d X NE. inversion X; congruence.
      - apply Nat.eqb_neq in EQ. assert (DI : depends h i j) by (exists n, name, s; auto).
        assert (Rj : R j) by (eapply CLOSED; eauto).
        destruct (EXISTS j Rj) as (d & Ed).
        destruct (RANK i j DI) as [LTj|OWN].
        2:{ (* back to the node it serves: that one has been entered *)
          destruct (RD j d n OWN Ed En) as [SJ LJ]. exists m. split.
          - destruct f as [|f']; [lia|]. cbn [sample_helper]. rewrite Ed, SJ, Nat.eqb_refl. reflexivity.
          - split; auto. split; [apply kept_refl|]. split; auto. intros j' d' X NE Ed'. inversion X; subst j'. assert (d' = d) by congruence. subst d'.
            split; auto. intros _. eapply LJ; eauto. }
        assert (RJ : forall k, In k stack -> rank j < rank k).
        { intros k Hk. destruct (RK k Hk) as [->|X]; lia. }
        assert (RDj : ready m j).
        { intros i' ni nj OW Ei' Ej. destruct (SERVES j i' OW) as [V1 V2]. specialize (V1 i DI). subst i'. assert (ni = n) by congruence. subst ni. split; auto.
          intros a s2 IN2 D2'. destruct (V2 nj n a s2 Ej En IN2 D2' doing name s todo ED EJ) as (s0 & Y1 & Y2). eapply F; eauto. }
        destruct (OK m j I Rj RJ RDj) as (m1 & E1 & I1 & K1 & S1 & (d1 & N1 & N2)).
        exists m1. split; auto. split; auto. split; auto. split; auto.
        intros j' d' X NE Ed'. inversion X; subst j'. assert (d' = d) by congruence. assert (d1 = d) by congruence. subst d' d1. split; auto. intros SRC.
        apply in_map_iff in SRC. destruct SRC as ([x s'] & X1 & X2). simpl in X1. subst x.
        eapply (i_filled _ _ _ _ _ _ _ I1); eauto. intros HJ. apply RJ in HJ. lia. }
    destruct DEP as (m1 & E1 & I1 & K1 & S1 & J1).
    (* the value *)
    assert (VAL : exists m2, sample_param (sample_helper func f h) h i n m (name, s) = Ok m2 /\ inv stack m2 /\ kept (sm_gs m) (sm_gs m2) /\
       (forall str x, dget str (sm_seen m) = Some x -> dget str (sm_seen m2) = Some x) /\
       (st_type s <> SCompute -> look (sm_gs m2) (nd_str n) name <> None)).
    { unfold sample_param. rewrite E1.
      assert (LINK : forall j d, st_dep s = Some j -> nth_error h j = Some d ->
         (if j =? i then exists l1 l2, nd_setters n = l1 ++ (name, s) :: l2 /\ In (st_src s) (map fst l1) /\
                           (forall s', In (st_src s, s') l1 -> st_type s' <> SCompute)
          else In (st_src s) (map fst (nd_setters d))) -> (forall v, good j (st_src s) v -> good i name v) ->
         exists m2, (match gs_item (sm_gs m1) (nd_str d) (st_src s) with Err e => Err e | Ok v => sm_set (sm_log m1 (EAssign i name)) (nd_str n) name v end) = Ok m2 /\
           inv stack m2 /\ kept (sm_gs m) (sm_gs m2) /\ (forall str x, dget str (sm_seen m) = Some x -> dget str (sm_seen m2) = Some x) /\
           look (sm_gs m2) (nd_str n) name <> None).
      { intros j d EJ Ed SRC HG.
        assert (LK : look (sm_gs m1) (nd_str d) (st_src s) <> None /\ R j).
        { destruct (j =? i) eqn:EQ.
          - apply Nat.eqb_eq in EQ. subst j. assert (d = n) by congruence. subst d. split; auto.
            destruct SRC as (l1 & l2 & Q1 & Q2 & Q3). apply in_map_iff in Q2. destruct Q2 as ([x s'] & X1 & X2). simpl in X1. subst x.
            assert (l1 = doing).
            { rewrite ED in Q1. destruct (WF i n En) as (ND & _). rewrite ED, map_app in ND. clear - Q1 ND.
              revert doing Q1 ND. induction l1 as [|a l1 IH']; intros [|b doing] Q ND; simpl in *; auto.
              - inversion Q; subst. inversion ND as [|? ? X Y]; subst. simpl in X. exfalso. apply X. apply in_app_iff. right. now left.
              - inversion Q; subst. inversion ND as [|? ? X Y]; subst. exfalso. apply X. rewrite map_app in X. 
                exfalso. apply X. apply in_app_iff. right. simpl. now left.
              - inversion Q; subst. f_equal. apply IH'; auto. now inversion ND. }
            subst l1. apply K1. eapply F; eauto.
          - apply Nat.eqb_neq in EQ. destruct (J1 j d EJ EQ Ed) as (Q2 & Q3). split; auto. }
        destruct LK as [LK Rj]. destruct (RUNS j d Rj Ed) as (Dd & _).
        destruct (item_ok (sm_gs m1) (nd_str d) (st_src s) Dd LK) as (v & V1 & V2). rewrite V1.
        assert (SV : store_value num v = Ok v).
        { apply store_value_idem. rewrite <- (i_n _ _ _ _ _ _ _ I1). apply (wf_var _ (i_wf _ _ _ _ _ _ _ I1) _ _ _ V2). }
        destruct (sm_set_inv fine good h num R DISTINCT stack (sm_log m1 (EAssign i name)) i n name v v) as (m2 & E2 & I2 & S2 & K2 & L2); auto.
        { now apply log_inv. } { apply HG. eapply (i_good _ _ _ _ _ _ _ I1); eauto. }
        exists m2. split; auto. split; auto. split; [eapply kept_trans; [exact K1|exact K2]|]. split; auto.
        intros str x Hx. rewrite S2. cbn [sm_log sm_seen]. auto. }
      destruct (st_type s) eqn:ET.
      - destruct HT.
      - destruct HT as (v & -> & HG). rewrite (i_n _ _ _ _ _ _ _ I1).
        destruct (sm_set_inv fine good h num R DISTINCT stack (sm_log m1 (EAssign i name)) i n name (if num =? 1 then v else Arr (repeat v num)) _ (log_inv _ _ _ _ _ _ _ _ I1) Hi En D1 D2 (const_stored num v) HG)
          as (m2 & E2 & I2 & S2 & K2 & L2).
        exists m2. split; auto. split; auto. split; [eapply kept_trans; [exact K1|exact K2]|]. split; auto.
        intros str x Hx. rewrite S2. cbn [sm_log sm_seen]. auto.
      - destruct HT as (j & d & Q1 & Q2 & Q3 & Q4). rewrite Q1, Q2. destruct (LINK j d Q1 Q2 Q3 Q4) as (m2 & X1 & X2 & X3 & X4 & X5).
        exists m2. auto.
      - destruct HT as (j & d & Q1 & Q2 & Q3 & Q4). rewrite Q1, Q2. destruct (LINK j d Q1 Q2 Q3 Q4) as (m2 & X1 & X2 & X3 & X4 & X5).
        exists m2. auto.
      - exists m1. split; auto. split; auto. }
    destruct VAL as (m2 & E2 & I2 & K2 & S2 & L2).
    destruct (IH (doing ++ [(name, s)]) m2) as (m3 & E3 & I3 & K3 & S3 & L3); auto.
    { now rewrite <- app_assoc. }
    { eapply ready_later; eauto. }
    { intros nm st X T. apply in_app_iff in X. destruct X as [X|[X|[]]].
      - apply K2. eapply F; eauto.
      - inversion X; subst. auto. }
    cbn [fold_res]. rewrite E2. exists m3. split; auto. split; auto. split; [eapply kept_trans; eauto|]. split; auto.
Qed.

Lemma helper_ok : forall f stack, NoDup stack -> (forall k, In k stack -> k < length h) -> length h < f + length stack -> ok_step stack f.
Proof.
  induction f as [|f IH]; intros stack ND LT LN m i I Hi RK RD.
  - exfalso. destruct (EXISTS i Hi) as (n & En). assert (i < length h) by (apply nth_error_Some; congruence).
    assert (NI : ~ In i stack) by (intros X; apply RK in X; lia).
    assert (length (i :: stack) <= length (seq 0 (length h))).
    { apply NoDup_incl_length; [now constructor|]. intros k [->|Hk]; apply in_seq; [lia|]. apply LT in Hk. lia. }
    rewrite seq_length in H0. simpl in *. lia.
  - cbn [sample_helper]. destruct (EXISTS i Hi) as (n & En). rewrite En.
    destruct (dget (nd_str n) (sm_seen m)) as [j|] eqn:ES.
    + destruct (i_seen _ _ _ _ _ _ _ I _ _ ES) as (Rj & nj & Ej & Sj). assert (j = i) by (eapply DISTINCT; eauto). subst j.
      rewrite Nat.eqb_refl. exists m. split; auto. split; auto. split; [apply kept_refl|]. split; auto. exists n. auto.
    + assert (Hlt : i < length h) by (apply nth_error_Some; congruence).
      assert (NI : ~ In i stack) by (intros X; apply RK in X; lia).
      set (m0 := mkSM (sm_gs m) (dset (nd_str n) i (sm_seen m)) (sm_w m) (sm_tr m ++ [EEnter i])).
      assert (I0 : inv (i :: stack) m0).
      { constructor; cbn [m0 sm_gs sm_seen sm_w]; try apply I.
        - intros str j Ej. rewrite dget_dset in Ej. destruct (String.eqb str (nd_str n)) eqn:EQ.
          + inversion Ej; subst. apply String.eqb_eq in EQ. subst. split; eauto.
          + eapply (i_seen _ _ _ _ _ _ _ I); eauto.
        - intros str j Ej NIj. rewrite dget_dset in Ej. destruct (String.eqb str (nd_str n)) eqn:EQ.
          + inversion Ej; subst. exfalso. apply NIj. now left.
          + eapply (i_filled _ _ _ _ _ _ _ I); eauto. intros X. apply NIj. now right. }
      assert (OK : ok_step (i :: stack) f).
      { apply IH; [now constructor| |simpl; lia]. intros k [->|Hk]; auto. }
      assert (FP : 1 <= f).
      { assert (length (i :: stack) <= length (seq 0 (length h))).
        { apply NoDup_incl_length; [now constructor|]. intros k [->|Hk]; apply in_seq; [lia|]. apply LT in Hk. lia. }
        rewrite seq_length in H. simpl in *. lia. }
      destruct (params_ok (i :: stack) f i n Hi En (or_introl eq_refl) OK FP) with (todo := nd_setters n) (doing := @nil (string * setter A)) (m := m0)
        as (m2 & E2 & I2 & K2 & S2 & L2); auto.
      { intros k [->|Hk]; auto. }
      { eapply ready_later; [exact RD|apply kept_refl|]. intros str x Hx. cbn [m0 sm_seen]. rewrite dget_dset_other; auto. intros ->. congruence. }
      { cbn [m0 sm_seen]. apply dget_dset_same. }
      fold m0. rewrite E2.
      destruct (RUNS i n Hi En) as (D1 & HP & HF).
      assert (CMP : exists m3, (if existsb (fun ps => is_compute (snd ps)) (nd_setters n) then compute func (sm_log m2 (ECompute i)) i n [] else Ok m2) = Ok m3 /\
         inv (i :: stack) m3 /\ kept (sm_gs m2) (sm_gs m3) /\ sm_seen m3 = sm_seen m2 /\ filled (sm_gs m3) i).
      { destruct (existsb _ (nd_setters n)) eqn:EX.
        - apply existsb_exists in EX. destruct EX as ([nm st] & X1 & X2). simpl in X2. unfold is_compute in X2.
          assert (ST : st_type st = SCompute) by (destruct (st_type st); auto; discriminate).
          destruct (HP nm st X1) as (_ & Q). rewrite ST in Q. destruct Q as [FN _].
          assert (EXC : exists name s, In (name, s) (nd_setters n) /\ st_type s = SCompute) by eauto.
          destruct (HF EXC FN) as (F1 & F2 & F3). unfold compute. rewrite FN. cbn [negb].
          destruct (nd_func n) as [fnm|] eqn:EFN; [|congruence].
          cbn [sm_log sm_gs sm_w sm_seen sm_tr].
          destruct (inputs_ok (sm_gs m2) (nd_str n) (nd_args n) D1) as (args & EA).
          { intros a Ha. destruct (F2 a Ha) as (s & Y1 & Y2). eapply L2; eauto. }
          rewrite EA. destruct (build_inputs_spec _ _ _ _ _ EA) as (B1 & B2).
          destruct (F3 (sm_w m2) args (i_fine _ _ _ _ _ _ _ I2) B1) as (w' & r & R1 & R2 & R3).
          { intros a v Hav. destruct (B2 _ _ Hav) as [X|[_ X]]; [discriminate|]. eapply (i_good _ _ _ _ _ _ _ I2); eauto. }
          rewrite R1.
          destruct (save_inv fine good h num R NUM DISTINCT i n r (i :: stack) (mkSM (sm_gs m2) (sm_seen m2) w' (sm_tr m2 ++ [ECompute i]))) as (m3 & E3 & I3 & S3 & K3 & L3); auto.
          { apply (world_inv fine good h num R (i :: stack) (sm_log m2 (ECompute i))); auto. now apply log_inv. }
          { intros o Ho. destruct (WF i n En) as (_ & _ & WO). destruct (WO o Ho) as (s & Y1 & Y2). apply (HP o s Y1). }
          exists m3. split; auto. split; auto. split; auto. split; auto.
          intros n' name s En' IN. assert (n' = n) by congruence. subst n'.
          destruct (st_type s) eqn:ET; try (apply K3; eapply L2; eauto; congruence).
          apply L3. destruct (HP name s IN) as (_ & Q). rewrite ET in Q. apply Q.
        - exists m2. split; auto. split; auto. split; [apply kept_refl|]. split; auto.
          intros n' name s En' IN. assert (n' = n) by congruence. subst n'. eapply L2; eauto. intros ST.
          assert (TR : existsb (fun ps => is_compute (snd ps)) (nd_setters n) = true).
          { apply existsb_exists. exists (name, s). split; auto. simpl. unfold is_compute. now rewrite ST. }
          congruence. }
      destruct CMP as (m3 & E3 & I3 & K3 & S3 & F3). rewrite E3. eexists. split; [reflexivity|].
      assert (GOTi : dget (nd_str n) (sm_seen m3) = Some i).
      { rewrite S3. apply S2. cbn [m0 sm_seen]. apply dget_dset_same. }
      cbn [sm_log sm_gs sm_seen sm_w]. split; [|split; [eapply kept_trans; [exact K2|exact K3]|split]].
      * constructor; cbn [sm_log sm_gs sm_seen sm_w]; try apply I3.
        intros str j Ej NIj. destruct (Nat.eq_dec j i) as [->|NE]; auto. eapply (i_filled _ _ _ _ _ _ _ I3); eauto.
        intros [X|X]; [congruence|tauto].
      * intros str x Hx. rewrite S3. apply S2. cbn [m0 sm_seen]. rewrite dget_dset_other; auto. intros ->. congruence.
      * exists n. auto.
Qed.
End P.

(** ** C109, sampling *)
(** As C103_sampling_succeeds, for models with nodes that serve the node they take their arguments from; the node sampled is not one of
    those. *)
Theorem C109_sampling_succeeds : forall A W (func : W -> nat -> dict (value A) -> W * result (value A))
    (fine : W -> Prop) (good : nat -> string -> value A -> Prop) fuel h root g num w h' owner,
  well_formed h -> valid_given g -> no_dangling h -> serves h owner -> layered h owner -> owner root = None ->
  (1 <= num)%Z -> length h < fuel -> fine w ->
  start_heap fuel h root = Ok h' -> distinct_names h h' root ->
  (forall k n, reaches h root k -> nth_error h' k = Some n -> node_runs func fine good h' (Z.to_nat num) k n) ->
  given_fits good h h' root (Z.to_nat num) g ->
  exists m, sample_parameters func fuel h root g num w = Ok (h', m) /\ fine (sm_w m) /\ gs_n (sm_gs m) = Z.to_nat num /\
    forall k n name s, reaches h root k -> nth_error h' k = Some n -> In (name, s) (nd_setters n) ->
      exists v, reads (sm_gs m) (nd_str n) name v /\ good k name v.
Proof.
  intros A W func fine good fuel h root g num w h' owner WF VG ND SV [rank [LY OWN]] OR HN HF FW EH DN RUNS GF.
  destruct (start_ok _ _ _ _ _ _ _ HN VG GF) as (s0 & ES).
  destruct (start_state_spec _ _ _ _ VG ES) as (S1 & S2 & S3 & S4 & S5 & S6).
  assert (WF' := start_heap_wf _ _ _ _ _ EH WF).
  destruct (start_heap_spec _ _ _ _ _ EH) as [LEN SH].
  assert (RT : root < length h).
  { unfold start_heap in EH. apply nth_error_Some. destruct (nth_error h root); [discriminate|discriminate EH]. }
  assert (EX : forall k, reaches h root k -> exists n, nth_error h' k = Some n).
  { intros k HR. assert (k < length h).
    { apply clos_rt_rtn1 in HR. destruct HR as [|x k HD _]; auto. eapply ND; eauto. }
    destruct (nth_error h' k) eqn:E; eauto. apply nth_error_None in E. lia. }
  assert (SET : forall k n', nth_error h' k = Some n' -> exists n, nth_error h k = Some n /\ nd_setters n' = nd_setters n).
  { intros k n' E. destruct (SH k) as [X|(n & n2 & X1 & X2 & X3)]; [exists n'; split; congruence|]. exists n. split; auto.
    assert (n2 = n') by congruence. subst. apply X3. }
  assert (SV' : serves h' owner).
  { intros j i O. destruct (SV j i O) as [V1 V2]. split.
    - intros k HD. apply V1. now apply (start_heap_deps _ _ _ _ _ k j EH).
    - intros nj ni a s Ej Ei IN D l1 name s' l2 SPL D'. destruct (SET _ _ Ej) as (nj0 & Ej0 & Sj). destruct (SET _ _ Ei) as (ni0 & Ei0 & Si).
      rewrite Sj in IN. rewrite Si in SPL. eapply V2; eauto. }
  assert (I0 : inv fine good h' (Z.to_nat num) (reaches h root) [] (mkSM s0 [] w [])).
  { constructor; cbn [sm_gs sm_seen sm_w]; auto; try discriminate.
    intros k n name v HR En HL. assert (FX := S6 _ _ _ HL).
    assert (GX : exists v0, given_value g (nd_str n) name v0).
    { apply S4. unfold fixed_in. unfold is_fixed in FX. destruct (dget (nd_str n) (gs_fixed s0)) as [l|]; [|discriminate].
      exists l. split; auto. now apply smem_In. }
    destruct GX as (v0 & GV). destruct (S5 _ _ _ GV) as (u & U1 & U2). assert (u = v) by congruence. subst u.
    destruct GF as [_ GF]. destruct (GF _ _ _ GV) as (_ & _ & _ & Q). eapply Q; eauto. now rewrite <- S2. }
  assert (HO : ok_step func fine good h' (Z.to_nat num) (reaches h root) rank owner [] fuel).
  { apply helper_ok; auto.
    - lia.
    - intros k j HR HD. eapply rt_trans; [exact HR|]. apply rt_step. now apply (start_heap_deps _ _ _ _ _ k j EH).
    - intros i j HD. apply LY. now apply (start_heap_deps _ _ _ _ _ i j EH).
    - constructor.
    - intros k [].
    - simpl. lia. }
  destruct (HO (mkSM s0 [] w []) root I0) as (m & E & I & K & SS & (n0 & N1 & N2)).
  { apply rt_refl. } { intros k []. } { intros i ni nj O. congruence. }
  assert (RUN : sample_parameters func fuel h root g num w = Ok (h', m)).
  { unfold sample_parameters. rewrite EH, ES, E. reflexivity. }
  exists m. split; auto. split; [apply (i_fine _ _ _ _ _ _ _ I)|]. split; [apply (i_n _ _ _ _ _ _ _ I)|].
  intros k n name s HR En IN.
  destruct (run_facts _ _ _ _ _ _ _ _ _ _ _ WF VG RUN) as (s1 & _ & _ & _ & Wf & _ & SO & ID & _).
  assert (SEEN : dget (nd_str n) (sm_seen m) = Some k).
  { apply ID in HR. unfold ids in HR. apply in_map_iff in HR. destruct HR as ([str x] & X1 & X2). simpl in X1. subst x.
    destruct SO as [NDs SO]. destruct (SO _ _ X2) as (n' & Y1 & Y2). assert (n' = n) by congruence. subst.
    apply In_dget; auto. }
  assert (F := i_filled _ _ _ _ _ _ _ I _ _ SEEN (fun x => x) n name s En IN).
  destruct (look (sm_gs m) (nd_str n) name) as [v|] eqn:EL; [|congruence].
  exists v. split; [unfold reads; apply reads_look; auto|]. eapply (i_good _ _ _ _ _ _ _ I); eauto.
Qed.
