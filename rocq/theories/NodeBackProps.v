(** Property C115: sampling a model whose helper nodes read parameters of the node they serve
    (src/lightcurvelynx/base_models.py 540-653; astro_utils/dustmap.py; docs/notebooks/adding_effects.ipynb:
    [dust = DustmapWrapper(..., ra=model.ra, dec=model.dec); model.add_effect(ExtinctionEffect(..., ebv=dust))]).
    The nodes then refer to each other in a circle, which C103 excludes. *)
From Coq Require Import String Ascii List Bool Arith ZArith Lia Relations.
From Verif Require Import Base BaseFacts Numerals GraphStateModel GraphStateProofs GraphStateProofs2 GraphStateProofs4 GraphStateProps
  NodeGraphModel NodeGraphProofs NodeSampleProofs NodeSampleProofs2 NodeGraphProps NodeDepProps NodeRunProps.
Import ListNotations.
Open Scope string_scope.
Open Scope list_scope.
Open Scope nat_scope.
#[local] Hint Resolve wf_wk reachable_wf : core.

(** ** Specification *)
(** An order of the nodes in which helpers come before the nodes they serve.  A link is forward when it leads to an earlier node. *)
Definition forward {A} (h : nheap A) (rank : nat -> nat) (i j : nat) : Prop := depends h i j /\ rank j < rank i.
(** A route of forward links, with all the nodes on it. *)
Inductive route {A} (h : nheap A) (rank : nat -> nat) : nat -> nat -> list nat -> Prop :=
| route_here : forall i, route h rank i i [i]
| route_step : forall i j k p, forward h rank i j -> route h rank j k p -> route h rank i k (i :: p).
(** Every link of a node [i] that is not forward reads a parameter of a node [b] such that (1) whichever way [i] is reached from [root], [b] is on the way, and (2) the
    parameter comes, in the order of the parameters of [b], before every parameter of [b] whose helper leads to [i], and is not an output of [b]'s function. *)
Definition reads_back_ok {A} (h : nheap A) (root : nat) (rank : nat -> nat) : Prop :=
  forall i n name s b nb, reaches h root i -> nth_error h i = Some n -> In (name, s) (nd_setters n) -> st_dep s = Some b -> b <> i -> ~ rank b < rank i ->
    nth_error h b = Some nb ->
    (forall p, route h rank root i p -> In b p) /\
    (forall l1 x sx l2 j p, nd_setters nb = l1 ++ (x, sx) :: l2 -> st_dep sx = Some j -> forward h rank b j -> route h rank j i p ->
       exists s', In (st_src s, s') l1 /\ st_type s' <> SCompute).

(** ** Proofs *)
Section P.
Context {A W : Type}.
Variable func : W -> nat -> dict (value A) -> W * result (value A).
Variable fine : W -> Prop.
Variable good : nat -> string -> value A -> Prop.
Notation sm := (sm A W).
Variables (h : nheap A) (num root : nat).
Notation R := (reaches h root).
Hypothesis NUM : 1 <= num.
Hypothesis RUNS : forall k n, R k -> nth_error h k = Some n -> node_runs func fine good h num k n.
Hypothesis WF : well_formed h.
Hypothesis EXISTS : forall k, R k -> exists n, nth_error h k = Some n.
Hypothesis DISTINCT : forall k1 k2 n1 n2, R k1 -> R k2 -> nth_error h k1 = Some n1 -> nth_error h k2 = Some n2 ->
  nd_str n1 = nd_str n2 -> k1 = k2.
Variable rank : nat -> nat.
Hypothesis BACK : reads_back_ok h root rank.
Notation inv := (inv fine good h num R).
Notation filled := (filled h).
Notation route := (route h rank).
Notation forward := (forward h rank).

Lemma CLOSED : forall k j, R k -> depends h k j -> R j.
Proof. intros k j HR HD. eapply rt_trans; [exact HR|]. now apply rt_step. Qed.
Lemma route_app : forall i j k p q, route i j p -> route j k q -> exists r, route i k (p ++ r) /\ q = j :: r.
Proof.
  intros i j k p q HP. revert q. induction HP as [i|i j' k' p HF HP IH]; intros q HQ.
  - inversion HQ as [x|x y z r HF HR]; subst; [exists []|exists r]; split; auto.
  - destruct (IH q HQ) as (r & R1 & R2). exists r. split; auto. simpl. econstructor; eauto.
Qed.
Lemma route_rank : forall i k p, route i k p -> forall x, In x p -> rank x <= rank i /\ rank k <= rank x /\ (rank x = rank i -> x = i) /\
  (exists q, route x k q) /\ (exists q, route i x q).
Proof using h rank.
  clear NUM RUNS. intros i k p HP. induction HP as [i|i j k p [HF HR] HP IH]; intros x HX.
  - destruct HX as [<-|[]]. repeat split; auto; exists [i]; constructor.
  - destruct HX as [<-|HX].
    + split; auto. assert (HJ : In j p) by (destruct HP; simpl; auto). destruct (IH j HJ) as (_ & B & _). split; [lia|]. split; auto.
      split; [exists (i :: p); econstructor; eauto; split; auto|exists [i]; constructor].
    + destruct (IH x HX) as (B1 & B2 & B3 & B4 & (q & B5)). split; [lia|]. split; auto. split; [lia|]. split; auto.
      exists (i :: q). econstructor; eauto. split; auto.
Qed.
Lemma route_ends : forall i k p, route i k p -> In i p /\ In k p.
Proof. intros i k p H. induction H; simpl; tauto. Qed.
Lemma route_reaches : forall i k p, route i k p -> R i -> R k.
Proof. intros i k p H. induction H as [|i j k p [HF _] _ IH]; auto. intros. apply IH. eapply CLOSED; eauto. Qed.
(** Every node that is reached is reached by forward links. *)
Lemma reached_forward : forall k, R k -> exists p, route root k p.
Proof.
  intros k HR. apply clos_rt_rtn1 in HR. induction HR as [|i k HD HR (p & IH)]; [exists [root]; constructor|].
  apply clos_rtn1_rt in HR. destruct (le_lt_dec (rank i) (rank k)) as [HB|HF].
  - destruct HD as (n & name & s & D1 & D2 & D3 & D4). assert (HK : depends h i k) by (exists n, name, s; auto).
    destruct (EXISTS k (CLOSED _ _ HR HK)) as (nb & En).
    destruct (BACK i n name s k nb HR D1 D2 D3 D4 ltac:(lia) En) as [HIN _].
    destruct (route_rank _ _ _ IH k (HIN _ IH)) as (_ & _ & _ & _ & HQ). exact HQ.
  - assert (HS : route i k [i; k]) by (econstructor; [split; eauto|constructor]).
    destruct (route_app _ _ _ _ _ IH HS) as (r & R1 & _). eauto.
Qed.

(** Everything that is read back by the nodes behind [j] is there. *)
Definition ready (m : sm) (j : nat) : Prop :=
  forall i p n name s b nb, route j i p -> nth_error h i = Some n -> In (name, s) (nd_setters n) -> st_dep s = Some b -> b <> i -> ~ rank b < rank i ->
    nth_error h b = Some nb -> (forall q, ~ route j b q) -> dget (nd_str nb) (sm_seen m) = Some b /\ look (sm_gs m) (nd_str nb) (st_src s) <> None.
Lemma ready_kept : forall (m m' : sm) j, kept (sm_gs m) (sm_gs m') -> (forall str x, dget str (sm_seen m) = Some x -> dget str (sm_seen m') = Some x) ->
  ready m j -> ready m' j.
Proof.
  intros m m' j K SS HR i p n name s b nb H1 H2 H3 H4 H5 H6 H7 H8. destruct (HR i p n name s b nb H1 H2 H3 H4 H5 H6 H7 H8) as [Q1 Q2]. auto.
Qed.

Definition ok_step (stack : list nat) (f : nat) : Prop := forall (m : sm) j, inv stack m -> R j -> (forall k, In k stack -> rank j < rank k) -> ready m j ->
  exists m', sample_helper func f h m j = Ok m' /\ inv stack m' /\ kept (sm_gs m) (sm_gs m') /\
    (forall str x, dget str (sm_seen m) = Some x -> dget str (sm_seen m') = Some x) /\
    (exists n, nth_error h j = Some n /\ dget (nd_str n) (sm_seen m') = Some j).

(** The loop over the parameters of one node. *)
Lemma params_ok : forall stack f i n, R i -> nth_error h i = Some n -> In i stack -> 1 <= f -> ok_step stack f ->
  (forall k, In k stack -> k = i \/ rank i < rank k) ->
  forall todo doing (m : sm), nd_setters n = doing ++ todo -> inv stack m -> ready m i -> dget (nd_str n) (sm_seen m) = Some i ->
  (forall name s, In (name, s) doing -> st_type s <> SCompute -> look (sm_gs m) (nd_str n) name <> None) ->
  exists m', fold_res (sample_param (sample_helper func f h) h i n) m todo = Ok m' /\ inv stack m' /\ kept (sm_gs m) (sm_gs m') /\
    (forall str x, dget str (sm_seen m) = Some x -> dget str (sm_seen m') = Some x) /\
    (forall name s, In (name, s) (nd_setters n) -> st_type s <> SCompute -> look (sm_gs m') (nd_str n) name <> None).
Proof.
  intros stack f i n Hi En IS F1 OK RK. induction todo as [|[name s] todo IH]; intros doing m ED I RD SI F.
  - rewrite app_nil_r in ED. simpl. exists m. split; auto. split; auto. split; [apply kept_refl|]. split; auto. now rewrite ED.
  - destruct (RUNS i n Hi En) as (D1 & HP & _).
    assert (IN : In (name, s) (nd_setters n)) by (rewrite ED; apply in_app_iff; right; now left).
    destruct (HP name s IN) as (D2 & HT).
    (* the node it depends on *)
    assert (DEP : exists m1, (match st_dep s with Some j => if j =? i then Ok m else sample_helper func f h m j | None => Ok m end) = Ok m1 /\
       inv stack m1 /\ kept (sm_gs m) (sm_gs m1) /\ (forall str x, dget str (sm_seen m) = Some x -> dget str (sm_seen m1) = Some x) /\
       (forall j, st_dep s = Some j -> j <> i -> exists d, nth_error h j = Some d /\ R j /\
          (In (st_src s) (map fst (nd_setters d)) -> look (sm_gs m1) (nd_str d) (st_src s) <> None))).
    { destruct (st_dep s) as [j|] eqn:EJ.
      2:{ exists m. split; auto. split; auto. split; [apply kept_refl|]. split; auto. intros; discriminate. }
      destruct (j =? i) eqn:EQ.
      - apply Nat.eqb_eq in EQ. subst. exists m. split; auto. split; auto. split; [apply kept_refl|]. split; auto.
        intros j X NE. inversion X; congruence.
      - apply Nat.eqb_neq in EQ. assert (DI : depends h i j) by (exists n, name, s; auto).
        assert (Rj : R j) by (eapply CLOSED; eauto).
        destruct (EXISTS j Rj) as (d & Ed).
        destruct (le_lt_dec (rank i) (rank j)) as [HB|HF].
        + (* read back: the node is being sampled *)
          assert (NF : ~ rank j < rank i) by lia.
          assert (NR : forall q, ~ route i j q).
          { intros q HQ. destruct (route_ends _ _ _ HQ) as [_ HJ]. destruct (route_rank _ _ _ HQ j HJ) as (X1 & _ & X2 & _). apply EQ. apply X2. lia. }
          destruct (RD i [i] n name s j d (route_here _ _ _) En IN EJ EQ NF Ed NR) as [Q1 Q2].
          exists m. split.
          * destruct f as [|f']; [lia|]. cbn [sample_helper]. rewrite Ed, Q1, Nat.eqb_refl. reflexivity.
          * split; auto. split; [apply kept_refl|]. split; auto. intros j' X NE. inversion X; subst j'. exists d. auto.
        + assert (RJ : forall k, In k stack -> rank j < rank k).
          { intros k Hk. destruct (RK k Hk) as [->|X]; lia. }
          assert (FW : forward i j) by (split; auto).
          assert (RDj : ready m j).
          { intros i' p n' name' s' b nb H1 H2 H3 H4 H5 H6 H7 H8.
            assert (HR' : R i') by (eapply route_reaches; eauto).
            destruct (BACK i' n' name' s' b nb HR' H2 H3 H4 H5 H6 H7) as [DOM SET].
            destruct (Nat.eq_dec b i) as [->|NE].
            - assert (nb = n) by congruence. subst nb. split; auto.
              destruct (SET doing name s todo j p ED EJ FW H1) as (s2 & Y1 & Y2). eapply F; eauto.
            - eapply (RD i' (i :: p)); eauto; [econstructor; eauto|].
              intros q HQ. destruct (reached_forward i Hi) as (r & HRr).
              assert (HIJ : route i i' (i :: p)) by (econstructor; eauto).
              destruct (route_app _ _ _ _ _ HRr HIJ) as (t & T1 & T2). inversion T2; subst t.
              specialize (DOM _ T1). apply in_app_iff in DOM. destruct DOM as [X|X].
              + destruct (route_rank _ _ _ HRr b X) as (_ & B1 & _ & (q1 & B2) & _).
                destruct (route_rank _ _ _ HQ b (proj2 (route_ends _ _ _ HQ))) as (B3 & _ & B4 & _). apply NE. apply B4. lia.
              + destruct (route_rank _ _ _ H1 b X) as (_ & _ & _ & _ & (q1 & B2)). eapply H8; eauto. }
          destruct (OK m j I Rj RJ RDj) as (m1 & E1 & I1 & K1 & S1 & (d' & N1 & N2)).
          assert (d' = d) by congruence. subst d'.
          exists m1. split; auto. split; auto. split; auto. split; auto.
          intros j' X NE. inversion X; subst j'. exists d. split; auto. split; auto.
          intros HS. apply in_map_iff in HS. destruct HS as ([y sy] & Y1 & Y2). simpl in Y1. subst y.
          eapply (i_filled _ _ _ _ _ _ _ I1); eauto. intros HJ. apply RJ in HJ. lia. }
    destruct DEP as (m1 & E1 & I1 & K1 & S1 & J1).
    (* the value *)
    assert (VAL : exists m2, sample_param (sample_helper func f h) h i n m (name, s) = Ok m2 /\ inv stack m2 /\ kept (sm_gs m) (sm_gs m2) /\
       (forall str x, dget str (sm_seen m) = Some x -> dget str (sm_seen m2) = Some x) /\
       (st_type s <> SCompute -> look (sm_gs m2) (nd_str n) name <> None)).
    { unfold sample_param. rewrite E1.
      assert (LINK : forall j d, st_dep s = Some j -> nth_error h j = Some d ->
         (if j =? i then exists l1 l2, nd_setters n = l1 ++ (name, s) :: l2 /\ In (st_src s) (map fst l1) /\
                           (forall s', In (st_src s, s') l1 -> st_type s' <> SCompute)
          else In (st_src s) (map fst (nd_setters d))) -> (forall v, good j (st_src s) v -> good i name v) ->
         exists m2, (match gs_item (sm_gs m1) (nd_str d) (st_src s) with Err e => Err e | Ok v => sm_set (sm_log m1 (EAssign i name)) (nd_str n) name v end) = Ok m2 /\
           inv stack m2 /\ kept (sm_gs m) (sm_gs m2) /\ (forall str x, dget str (sm_seen m) = Some x -> dget str (sm_seen m2) = Some x) /\
           look (sm_gs m2) (nd_str n) name <> None).
      { intros j d EJ Ed SRC HG.
        assert (LK : look (sm_gs m1) (nd_str d) (st_src s) <> None /\ R j).
        { destruct (j =? i) eqn:EQ.
          - apply Nat.eqb_eq in EQ. subst j. assert (d = n) by congruence. subst d. split; auto.
            destruct SRC as (l1 & l2 & Q1 & Q2 & Q3). apply in_map_iff in Q2. destruct Q2 as ([x s'] & X1 & X2). simpl in X1. subst x.
            assert (l1 = doing).
            { rewrite ED in Q1. destruct (WF i n En) as (ND & _). rewrite ED, map_app in ND. clear - Q1 ND.
              revert doing Q1 ND. induction l1 as [|a l1 IH']; intros [|b doing] Q ND; simpl in *; auto.
              - inversion Q; subst. inversion ND as [|? ? X Y]; subst. simpl in X. exfalso. apply X. apply in_app_iff. right. now left.
              - inversion Q; subst. inversion ND as [|? ? X Y]; subst. exfalso. apply X. rewrite map_app in X. 
                exfalso. apply X. apply in_app_iff. right. simpl. now left.
              - inversion Q; subst. f_equal. apply IH'; auto. now inversion ND. }
            subst l1. apply K1. eapply F; eauto.
          - apply Nat.eqb_neq in EQ. destruct (J1 j EJ EQ) as (d' & Q1 & Q2 & Q3). assert (d' = d) by congruence. subst d'.
            split; auto. }
        destruct LK as [LK Rj]. destruct (RUNS j d Rj Ed) as (Dd & _).
        destruct (item_ok (sm_gs m1) (nd_str d) (st_src s) Dd LK) as (v & V1 & V2). rewrite V1.
        assert (SV : store_value num v = Ok v).
        { apply store_value_idem. rewrite <- (i_n _ _ _ _ _ _ _ I1). apply (wf_var _ (i_wf _ _ _ _ _ _ _ I1) _ _ _ V2). }
        destruct (sm_set_inv fine good h num R DISTINCT stack (sm_log m1 (EAssign i name)) i n name v v) as (m2 & E2 & I2 & S2 & K2 & L2); auto.
        { now apply log_inv. } { apply HG. eapply (i_good _ _ _ _ _ _ _ I1); eauto. }
        exists m2. split; auto. split; auto. split; [eapply kept_trans; [exact K1|exact K2]|]. split; auto.
        intros str x Hx. rewrite S2. cbn [sm_log sm_seen]. auto. }
      destruct (st_type s) eqn:ET.
      - destruct HT.
      - destruct HT as (v & -> & HG). rewrite (i_n _ _ _ _ _ _ _ I1).
        destruct (sm_set_inv fine good h num R DISTINCT stack (sm_log m1 (EAssign i name)) i n name (if num =? 1 then v else Arr (repeat v num)) _ (log_inv _ _ _ _ _ _ _ _ I1) Hi En D1 D2 (const_stored num v) HG)
          as (m2 & E2 & I2 & S2 & K2 & L2).
        exists m2. split; auto. split; auto. split; [eapply kept_trans; [exact K1|exact K2]|]. split; auto.
        intros str x Hx. rewrite S2. cbn [sm_log sm_seen]. auto.
      - destruct HT as (j & d & Q1 & Q2 & Q3 & Q4). rewrite Q1, Q2. destruct (LINK j d Q1 Q2 Q3 Q4) as (m2 & X1 & X2 & X3 & X4 & X5).
        exists m2. auto.
      - destruct HT as (j & d & Q1 & Q2 & Q3 & Q4). rewrite Q1, Q2. destruct (LINK j d Q1 Q2 Q3 Q4) as (m2 & X1 & X2 & X3 & X4 & X5).
        exists m2. auto.
      - exists m1. split; auto. split; auto. }
    destruct VAL as (m2 & E2 & I2 & K2 & S2 & L2).
    destruct (IH (doing ++ [(name, s)]) m2) as (m3 & E3 & I3 & K3 & S3 & L3); auto.
    { now rewrite <- app_assoc. } { now apply (ready_kept m). }
    { intros nm st X T. apply in_app_iff in X. destruct X as [X|[X|[]]].
      - apply K2. eapply F; eauto.
      - inversion X; subst. auto. }
    cbn [fold_res]. rewrite E2. exists m3. split; auto. split; auto. split; [eapply kept_trans; eauto|]. split; auto.
Qed.

Lemma helper_ok : forall f stack, NoDup stack -> (forall k, In k stack -> k < length h) -> length h < f + length stack -> ok_step stack f.
Proof.
  induction f as [|f IH]; intros stack ND LT LN m i I Hi RK RD.
  - exfalso. destruct (EXISTS i Hi) as (n & En). assert (i < length h) by (apply nth_error_Some; congruence).
    assert (NI : ~ In i stack) by (intros X; apply RK in X; lia).
    assert (length (i :: stack) <= length (seq 0 (length h))).
    { apply NoDup_incl_length; [now constructor|]. intros k [->|Hk]; apply in_seq; [lia|]. apply LT in Hk. lia. }
    rewrite seq_length in H0. simpl in *. lia.
  - cbn [sample_helper]. destruct (EXISTS i Hi) as (n & En). rewrite En.
    destruct (dget (nd_str n) (sm_seen m)) as [j|] eqn:ES.
    + destruct (i_seen _ _ _ _ _ _ _ I _ _ ES) as (Rj & nj & Ej & Sj). assert (j = i) by (eapply DISTINCT; eauto). subst j.
      rewrite Nat.eqb_refl. exists m. split; auto. split; auto. split; [apply kept_refl|]. split; auto. exists n. auto.
    + assert (Hlt : i < length h) by (apply nth_error_Some; congruence).
      assert (NI : ~ In i stack) by (intros X; apply RK in X; lia).
      set (m0 := mkSM (sm_gs m) (dset (nd_str n) i (sm_seen m)) (sm_w m) (sm_tr m ++ [EEnter i])).
      assert (I0 : inv (i :: stack) m0).
      { constructor; cbn [m0 sm_gs sm_seen sm_w]; try apply I.
        - intros str j Ej. rewrite dget_dset in Ej. destruct (String.eqb str (nd_str n)) eqn:EQ.
          + inversion Ej; subst. apply String.eqb_eq in EQ. subst. split; eauto.
          + eapply (i_seen _ _ _ _ _ _ _ I); eauto.
        - intros str j Ej NIj. rewrite dget_dset in Ej. destruct (String.eqb str (nd_str n)) eqn:EQ.
          + inversion Ej; subst. exfalso. apply NIj. now left.
          + eapply (i_filled _ _ _ _ _ _ _ I); eauto. intros X. apply NIj. now right. }
      assert (OK : ok_step (i :: stack) f).
      { apply IH; [now constructor| |simpl; lia]. intros k [->|Hk]; auto. }
      assert (F1 : 1 <= f).
      { assert (LL : length (i :: stack) <= length (seq 0 (length h))).
        { apply NoDup_incl_length; [now constructor|]. intros k [->|Hk]; apply in_seq; [lia|]. apply LT in Hk. lia. }
        rewrite seq_length in LL. simpl in LL. lia. }
      destruct (params_ok (i :: stack) f i n Hi En (or_introl eq_refl) F1 OK) with (todo := nd_setters n) (doing := @nil (string * setter A)) (m := m0)
        as (m2 & E2 & I2 & K2 & S2 & L2); auto.
      { intros k [->|Hk]; auto. }
      { apply (ready_kept m m0 i); [apply kept_refl| |exact RD]. cbn [m0 sm_seen sm_gs]. intros str x Hx. rewrite dget_dset_other; auto. intros ->. congruence. }
      { cbn [m0 sm_seen]. apply dget_dset_same. }
      fold m0. rewrite E2.
      destruct (RUNS i n Hi En) as (D1 & HP & HF).
      assert (CMP : exists m3, (if existsb (fun ps => is_compute (snd ps)) (nd_setters n) then compute func (sm_log m2 (ECompute i)) i n [] else Ok m2) = Ok m3 /\
         inv (i :: stack) m3 /\ kept (sm_gs m2) (sm_gs m3) /\ sm_seen m3 = sm_seen m2 /\ filled (sm_gs m3) i).
      { destruct (existsb _ (nd_setters n)) eqn:EX.
        - apply existsb_exists in EX. destruct EX as ([nm st] & X1 & X2). simpl in X2. unfold is_compute in X2.
          assert (ST : st_type st = SCompute) by (destruct (st_type st); auto; discriminate).
          destruct (HP nm st X1) as (_ & Q). rewrite ST in Q. destruct Q as [FN _].
          assert (EXC : exists name s, In (name, s) (nd_setters n) /\ st_type s = SCompute) by eauto.
          destruct (HF EXC FN) as (G1 & G2 & G3). unfold compute. rewrite FN. cbn [negb].
          destruct (nd_func n) as [fnm|] eqn:EFN; [|congruence].
          cbn [sm_log sm_gs sm_w sm_seen sm_tr].
          destruct (inputs_ok (sm_gs m2) (nd_str n) (nd_args n) D1) as (args & EA).
          { intros a Ha. destruct (G2 a Ha) as (s & Y1 & Y2). eapply L2; eauto. }
          rewrite EA. destruct (build_inputs_spec _ _ _ _ _ EA) as (B1 & B2).
          destruct (G3 (sm_w m2) args (i_fine _ _ _ _ _ _ _ I2) B1) as (w' & r & R1 & R2 & R3).
          { intros a v Hav. destruct (B2 _ _ Hav) as [X|[_ X]]; [discriminate|]. eapply (i_good _ _ _ _ _ _ _ I2); eauto. }
          rewrite R1.
          destruct (save_inv fine good h num R NUM DISTINCT i n r (i :: stack) (mkSM (sm_gs m2) (sm_seen m2) w' (sm_tr m2 ++ [ECompute i]))) as (m3 & E3 & I3 & S3 & K3 & L3); auto.
          { apply (world_inv _ _ _ _ _ (i :: stack) (sm_log m2 (ECompute i))); auto. now apply log_inv. }
          { intros o Ho. destruct (WF i n En) as (_ & _ & WO). destruct (WO o Ho) as (s & Y1 & Y2). apply (HP o s Y1). }
          exists m3. split; auto. split; auto. split; auto. split; auto.
          intros n' name s En' IN. assert (n' = n) by congruence. subst n'.
          destruct (st_type s) eqn:ET; try (apply K3; eapply L2; eauto; congruence).
          apply L3. destruct (HP name s IN) as (_ & Q). rewrite ET in Q. apply Q.
        - exists m2. split; auto. split; auto. split; [apply kept_refl|]. split; auto.
          intros n' name s En' IN. assert (n' = n) by congruence. subst n'. eapply L2; eauto. intros ST.
          assert (TR : existsb (fun ps => is_compute (snd ps)) (nd_setters n) = true).
          { apply existsb_exists. exists (name, s). split; auto. simpl. unfold is_compute. now rewrite ST. }
          congruence. }
      destruct CMP as (m3 & E3 & I3 & K3 & S3 & F3). rewrite E3. eexists. split; [reflexivity|].
      assert (GOTi : dget (nd_str n) (sm_seen m3) = Some i).
      { rewrite S3. apply S2. cbn [m0 sm_seen]. apply dget_dset_same. }
      cbn [sm_log sm_gs sm_seen sm_w]. split; [|split; [eapply kept_trans; [exact K2|exact K3]|split]].
      * constructor; cbn [sm_log sm_gs sm_seen sm_w]; try apply I3.
        intros str j Ej NIj. destruct (Nat.eq_dec j i) as [->|NE]; auto. eapply (i_filled _ _ _ _ _ _ _ I3); eauto.
        intros [X|X]; [congruence|tauto].
      * intros str x Hx. rewrite S3. apply S2. cbn [m0 sm_seen]. rewrite dget_dset_other; auto. intros ->. congruence.
      * exists n. auto.
Qed.
End P.

(** ** C115 *)
Lemma reaches_same : forall A fuel (h : nheap A) root h' i k, start_heap fuel h root = Ok h' -> (reaches h' i k <-> reaches h i k).
Proof.
  intros A fuel h root h' i k E. split; intros H; induction H; try apply rt_refl; try (eapply rt_trans; eauto; fail); apply rt_step;
    now apply (start_heap_deps _ _ _ _ _ _ _ E).
Qed.
Theorem C115_sampling_succeeds : forall A W (func : W -> nat -> dict (value A) -> W * result (value A))
    (fine : W -> Prop) (good : nat -> string -> value A -> Prop) fuel h root g num w h' rank,
  well_formed h -> valid_given g -> no_dangling h -> (1 <= num)%Z -> length h < fuel -> fine w ->
  start_heap fuel h root = Ok h' -> distinct_names h h' root -> reads_back_ok h' root rank ->
  (forall k n, reaches h root k -> nth_error h' k = Some n -> node_runs func fine good h' (Z.to_nat num) k n) ->
  given_fits good h h' root (Z.to_nat num) g ->
  exists m, sample_parameters func fuel h root g num w = Ok (h', m) /\ fine (sm_w m) /\ gs_n (sm_gs m) = Z.to_nat num /\
    forall k n name s, reaches h root k -> nth_error h' k = Some n -> In (name, s) (nd_setters n) ->
      exists v, reads (sm_gs m) (nd_str n) name v /\ good k name v.
Proof.
  intros A W func fine good fuel h root g num w h' rank WF VG ND HN HF FW EH DN BK RUNS GF.
  destruct (start_ok _ _ _ _ _ _ _ HN VG GF) as (s0 & ES).
  destruct (start_state_spec _ _ _ _ VG ES) as (S1 & S2 & S3 & S4 & S5 & S6).
  assert (WF' := start_heap_wf _ _ _ _ _ EH WF).
  destruct (start_heap_spec _ _ _ _ _ EH) as [LEN SH].
  assert (RS : forall k, reaches h' root k <-> reaches h root k) by (intros k; now apply (reaches_same _ _ _ _ _ _ _ EH)).
  assert (RT : root < length h).
  { unfold start_heap in EH. apply nth_error_Some. destruct (nth_error h root); [discriminate|discriminate EH]. }
  assert (EX : forall k, reaches h root k -> exists n, nth_error h' k = Some n).
  { intros k HR. assert (k < length h).
    { apply clos_rt_rtn1 in HR. destruct HR as [|x k HD _]; auto. eapply ND; eauto. }
    destruct (nth_error h' k) eqn:E; eauto. apply nth_error_None in E. lia. }
  assert (I0 : inv fine good h' (Z.to_nat num) (reaches h' root) [] (mkSM s0 [] w [])).
  { constructor; cbn [sm_gs sm_seen sm_w]; auto; try discriminate.
    intros k n name v HR En HL. apply RS in HR. assert (FX := S6 _ _ _ HL).
    assert (GX : exists v0, given_value g (nd_str n) name v0).
    { apply S4. unfold fixed_in. unfold is_fixed in FX. destruct (dget (nd_str n) (gs_fixed s0)) as [l|]; [|discriminate].
      exists l. split; auto. now apply smem_In. }
    destruct GX as (v0 & GV). destruct (S5 _ _ _ GV) as (u & U1 & U2). assert (u = v) by congruence. subst u.
    destruct GF as [_ GF]. destruct (GF _ _ _ GV) as (_ & _ & _ & Q). eapply Q; eauto. now rewrite <- S2. }
  assert (HO : ok_step func fine good h' (Z.to_nat num) root rank [] fuel).
  { apply helper_ok; auto.
    - lia.
    - intros k n HR. apply RUNS. now apply RS.
    - intros k HR. apply EX. now apply RS.
    - intros k1 k2 n1 n2 H1 H2. apply RS in H1. apply RS in H2. eapply DN; eauto.
    - constructor.
    - intros k [].
    - simpl. lia. }
  destruct (HO (mkSM s0 [] w []) root I0) as (m & E & I & K & SS & (n0 & N1 & N2)).
  { apply rt_refl. } { intros k []. }
  { intros i p n name s b nb H1 H2 H3 H4 H5 H6 H7 H8. exfalso.
    assert (HRi : reaches h' root i). { eapply (route_reaches h' root rank); [exact H1|apply rt_refl]. }
    destruct (BK i n name s b nb HRi H2 H3 H4 H5 H6 H7) as [DOM _]. specialize (DOM _ H1).
    destruct (route_rank h' rank _ _ _ H1 b DOM) as (_ & _ & _ & _ & (q & HQ)). eapply H8; eauto. }
  assert (RUN : sample_parameters func fuel h root g num w = Ok (h', m)).
  { unfold sample_parameters. rewrite EH, ES, E. reflexivity. }
  exists m. split; auto. split; [apply (i_fine _ _ _ _ _ _ _ I)|]. split; [apply (i_n _ _ _ _ _ _ _ I)|].
  intros k n name s HR En IN.
  destruct (run_facts _ _ _ _ _ _ _ _ _ _ _ WF VG RUN) as (s1 & _ & _ & _ & Wf & _ & SO & ID & _).
  assert (SEEN : dget (nd_str n) (sm_seen m) = Some k).
  { apply ID in HR. unfold ids in HR. apply in_map_iff in HR. destruct HR as ([str x] & X1 & X2). simpl in X1. subst x.
    destruct SO as [NDs SO]. destruct (SO _ _ X2) as (n' & Y1 & Y2). assert (n' = n) by congruence. subst.
    apply In_dget; auto. }
  assert (F := i_filled _ _ _ _ _ _ _ I _ _ SEEN (fun x => x) n name s En IN).
  destruct (look (sm_gs m) (nd_str n) name) as [v|] eqn:EL; [|congruence].
  exists v. split; [unfold reads; apply reads_look; auto|]. eapply (i_good _ _ _ _ _ _ _ I); eauto. now apply RS.
Qed.
(** The models of C103 are covered: in an acyclic graph no link leads back. *)
Theorem C115_acyclic_covered : forall A (h : nheap A) root, acyclic h -> exists rank, reads_back_ok h root rank.
Proof.
  intros A h root [rank AC]. exists rank. intros i n name s b nb HR En IN ED NE NR. exfalso. apply NR, AC. exists n, name, s. auto.
Qed.
(** ** The other direction *)
(** A parameter that is not there cannot be read. *)
Lemma item_missing : forall A (g : gs A) nd name, has_dot nd = false -> look g nd name = None -> exists e, gs_item g nd name = Err e.
Proof.
  intros A g nd name D L. unfold look in L. unfold gs_item, gs_getitem. destruct (dget nd (gs_states g)) as [d|]; [rewrite L; eauto|].
  rewrite D. destruct (gs_states g) as [|[x d] [|y l]]; eauto. destruct (dget nd d); eauto.
Qed.
