(** Property C103: sampling a well-built model succeeds, and every sampled value is of the kind its parameter is meant to have
    (src/lightcurvelynx/base_models.py 540-653, 885-971).  The functions of the nodes are arbitrary ([func], on an arbitrary
    "world" of generators); what they need of their arguments is an arbitrary predicate [good]. *)
From Coq Require Import String Ascii List Bool Arith ZArith Lia Relations.
From Verif Require Import Base BaseFacts Numerals GraphStateModel GraphStateProofs GraphStateProofs2 GraphStateProofs4 GraphStateProps
  NodeGraphModel NodeGraphProofs NodeSampleProofs NodeSampleProofs2 NodeGraphProps NodeDepProps.
Import ListNotations.
Open Scope string_scope.
Open Scope list_scope.
Open Scope nat_scope.
#[local] Hint Resolve wf_wk reachable_wf : core.

(** ** Specification *)
Section Spec.
Context {A W : Type}.
Variable func : W -> nat -> dict (value A) -> W * result (value A).
(** Whether a state of the generators is acceptable; the values a parameter of a node may have. *)
Variable fine : W -> Prop.
Variable good : nat -> string -> value A -> Prop.

(** One parameter [name] of node [k] in a model sampled [num] times. *)
Definition param_runs (h : nheap A) (num : nat) (k : nat) (n : node A) (name : string) (s : setter A) : Prop :=
  has_dot name = false /\
  match st_type s with
  | SUndef => False
  | SConst => exists v, st_const s = Some v /\ good k name (if num =? 1 then v else Arr (repeat v num))
  | SModel | SFunc =>
      exists j d, st_dep s = Some j /\ nth_error h j = Some d /\
        (* the parameter it is linked to exists; on the same node, it comes before *)
        (if j =? k then exists l1 l2, nd_setters n = l1 ++ (name, s) :: l2 /\ In (st_src s) (map fst l1) /\
                          (forall s', In (st_src s, s') l1 -> st_type s' <> SCompute)
         else In (st_src s) (map fst (nd_setters d))) /\
        (forall v, good j (st_src s) v -> good k name v)
  | SCompute => nd_fn n = true /\ In name (nd_outs n)
  end.
(** The function of node [k], on good arguments, returns good values for the outputs. *)
Definition function_runs (num : nat) (k : nat) (n : node A) : Prop :=
  nd_func n <> None /\
  (forall a, In a (nd_args n) -> exists s, In (a, s) (nd_setters n) /\ st_type s <> SCompute) /\
  forall w args, fine w -> map fst args = nd_args n -> (forall a v, In (a, v) args -> good k a v) ->
    exists w' r, func w k args = (w', Ok r) /\ fine w' /\
      match nd_outs n with
      | [o] => exists u, expands num r u /\ good k o u
      | outs => exists l, r = Arr l /\ length l = length outs /\
                  forall p o x, nth_error outs p = Some o -> nth_error l p = Some x -> exists u, expands num x u /\ good k o u
      end.
Definition node_runs (h : nheap A) (num : nat) (k : nat) (n : node A) : Prop :=
  has_dot (nd_str n) = false /\
  (forall name s, In (name, s) (nd_setters n) -> param_runs h num k n name s) /\
  ((exists name s, In (name, s) (nd_setters n) /\ st_type s = SCompute) -> nd_fn n = true -> function_runs num k n).
End Spec.

(** ** Proofs *)
Section P.
Context {A W : Type}.
Variable func : W -> nat -> dict (value A) -> W * result (value A).
Variable fine : W -> Prop.
Variable good : nat -> string -> value A -> Prop.
Notation sm := (sm A W).

Definition kept (g g' : gs A) : Prop := forall nd vr, look g nd vr <> None -> look g' nd vr <> None.
Lemma kept_refl : forall g, kept g g.
Proof. intros g nd vr H. exact H. Qed.
Lemma kept_trans : forall a b c, kept a b -> kept b c -> kept a c.
Proof. intros a b c H1 H2 nd vr H. apply H2, H1, H. Qed.

(** Setting a value. *)
Lemma set_ok : forall (g : gs A) nd name v w, wf g -> has_dot nd = false -> has_dot name = false -> store_value (gs_n g) v = Ok w ->
  exists g', gs_set g nd name v false = (g', None) /\ wf g' /\ gs_n g' = gs_n g /\ kept g g' /\ look g' nd name <> None /\
    (forall x vr u, look g' x vr = Some u -> look g x vr = Some u \/ (x = nd /\ vr = name /\ u = w)).
Proof.
  intros g nd name v w Wf D1 D2 ES. destruct (gs_set g nd name v false) as [g' r] eqn:E.
  destruct (set_spec _ _ _ _ _ _ _ Wf E) as (W' & HN & HR & HO & HL & HF & HV & _).
  assert (r = None) as ->. { destruct HR as [->| ->]; auto. destruct (HV eq_refl) as [X|[X|X]]; congruence. }
  exists g'. split; auto. split; auto. split; auto. simpl in HL. rewrite ES in HL. split; [|split].
  - intros x vr H. rewrite HL. destruct (_ && _ && _); [discriminate|exact H].
  - rewrite HL, !String.eqb_refl. simpl. destruct (is_fixed g nd name) eqn:EF; simpl; [|discriminate].
    now apply (wf_fix _ Wf).
  - intros x vr u H. rewrite HL in H. destruct (String.eqb x nd && String.eqb vr name && _) eqn:EB; auto.
    apply andb_true_iff in EB. destruct EB as [EB _]. apply eqb2 in EB. destruct EB as [-> ->]. inversion H; auto.
Qed.

Lemma item_ok : forall (g : gs A) nd name, has_dot nd = false -> look g nd name <> None ->
  exists v, gs_item g nd name = Ok v /\ look g nd name = Some v.
Proof.
  intros g nd name D H. unfold look in *. unfold gs_item, gs_getitem.
  destruct (dget nd (gs_states g)) as [d|]; [|congruence].
  destruct (dget name d) as [v|]; [|congruence]. eauto.
Qed.

Lemma inputs_ok : forall (g : gs A) nd args, has_dot nd = false -> (forall a, In a args -> look g nd a <> None) ->
  exists d, build_inputs g nd args [] = Ok d.
Proof.
  intros g nd args D. induction args as [|a args IH]; simpl; intros H; [eauto|].
  destruct (item_ok g nd a D) as (v & E & _); [apply H; now left|]. rewrite E.
  destruct IH as [d ->]; [intros; apply H; now right|]. eauto.
Qed.

Variables (h : nheap A) (num : nat) (R : nat -> Prop).
Hypothesis NUM : 1 <= num.
Hypothesis RUNS : forall k n, R k -> nth_error h k = Some n -> node_runs func fine good h num k n.
Hypothesis WF : well_formed h.
Hypothesis CLOSED : forall k j, R k -> depends h k j -> R j.
Hypothesis EXISTS : forall k, R k -> exists n, nth_error h k = Some n.
Hypothesis DISTINCT : forall k1 k2 n1 n2, R k1 -> R k2 -> nth_error h k1 = Some n1 -> nth_error h k2 = Some n2 ->
  nd_str n1 = nd_str n2 -> k1 = k2.
Variable rank : nat -> nat.
Hypothesis RANK : forall i j, depends h i j -> rank j < rank i.

Definition all_good (g : gs A) : Prop :=
  forall k n name v, R k -> nth_error h k = Some n -> look g (nd_str n) name = Some v -> good k name v.
Definition filled (g : gs A) (k : nat) : Prop :=
  forall n name s, nth_error h k = Some n -> In (name, s) (nd_setters n) -> look g (nd_str n) name <> None.

Record inv (stack : list nat) (m : sm) : Prop := mkInv {
  i_wf : wf (sm_gs m);
  i_n : gs_n (sm_gs m) = num;
  i_fine : fine (sm_w m);
  i_good : all_good (sm_gs m);
  i_seen : forall str j, dget str (sm_seen m) = Some j -> R j /\ exists n, nth_error h j = Some n /\ nd_str n = str;
  i_filled : forall str j, dget str (sm_seen m) = Some j -> ~ In j stack -> filled (sm_gs m) j
}.

Lemma filled_kept : forall g g' k, kept g g' -> filled g k -> filled g' k.
Proof. intros g g' k K F n name s E I. apply K. eapply F; eauto. Qed.

(** Storing one value in the state of a run. *)
Lemma sm_set_inv : forall stack (m : sm) i n name v w, inv stack m -> R i -> nth_error h i = Some n -> has_dot (nd_str n) = false ->
  has_dot name = false -> store_value num v = Ok w -> good i name w ->
  exists m', sm_set m (nd_str n) name v = Ok m' /\ inv stack m' /\ sm_seen m' = sm_seen m /\ kept (sm_gs m) (sm_gs m') /\
    look (sm_gs m') (nd_str n) name <> None.
Proof.
  intros stack m i n name v w I Hi En D1 D2 ES G.
  destruct (set_ok (sm_gs m) (nd_str n) name v w (i_wf _ _ I) D1 D2) as (g' & E & W' & N' & K & L & O).
  { now rewrite (i_n _ _ I). }
  unfold sm_set. rewrite E. eexists. split; [reflexivity|]. cbn [sm_gs sm_seen sm_w sm_tr]. split; [|auto].
  constructor; cbn [sm_gs sm_seen sm_w]; auto.
  - rewrite N'. apply (i_n _ _ I).
  - apply (i_fine _ _ I).
  - intros k n' nm u Hk En' Hu. destruct (O _ _ _ Hu) as [Hu'|(X1 & X2 & X3)].
    + eapply (i_good _ _ I); eauto.
    + subst. assert (k = i) by (eapply DISTINCT; eauto). now subst.
  - apply (i_seen _ _ I).
  - intros str j Ej NI. eapply filled_kept; [exact K|]. eapply (i_filled _ _ I); eauto.
Qed.
Lemma log_inv : forall stack (m : sm) e, inv stack m -> inv stack (sm_log m e).
Proof. intros stack m e [I1 I2 I3 I4 I5 I6]. constructor; cbn [sm_log sm_gs sm_seen sm_w]; auto. Qed.
Lemma world_inv : forall stack (m : sm) w', inv stack m -> fine w' -> inv stack (mkSM (sm_gs m) (sm_seen m) w' (sm_tr m)).
Proof. intros stack m w' [I1 I2 I3 I4 I5 I6] F. constructor; cbn [sm_gs sm_seen sm_w]; auto. Qed.

Lemma save_all_inv : forall i n outs l stack (m : sm), inv stack m -> R i -> nth_error h i = Some n -> has_dot (nd_str n) = false ->
  (forall o, In o outs -> has_dot o = false) ->
  (forall p o x, nth_error outs p = Some o -> nth_error l p = Some x -> exists u, expands num x u /\ good i o u) ->
  length l = length outs ->
  exists m', fold_res (fun m ov => sm_set m (nd_str n) (fst ov) (snd ov)) m (combine outs l) = Ok m' /\ inv stack m' /\
    sm_seen m' = sm_seen m /\ kept (sm_gs m) (sm_gs m') /\ (forall o, In o outs -> look (sm_gs m') (nd_str n) o <> None).
Proof.
  intros i n outs. induction outs as [|o outs IH]; intros l stack m I Hi En D1 D2 HG HL.
  - simpl. exists m. split; auto. split; auto. split; auto. split; [apply kept_refl|intros o []].
  - destruct l as [|x l]; [discriminate|]. simpl in HL. cbn [combine fold_res].
    destruct (HG 0 o x eq_refl eq_refl) as (u & U1 & U2).
    destruct (sm_set_inv stack m i n o x u) as (m1 & E1 & I1 & S1 & K1 & L1); auto.
    { apply D2. now left. } { apply store_value_cases; auto. }
    cbn [fst snd]. rewrite E1.
    destruct (IH l stack m1) as (m2 & E2 & I2 & S2 & K2 & L2); auto.
    { intros o' Ho'. apply D2. now right. } { intros p o' x' Ho Hx. apply (HG (S p)); auto. }
    exists m2. split; auto. split; auto. split; [congruence|]. split; [eapply kept_trans; eauto|].
    intros o' [->|Ho']; auto.
Qed.

Lemma save_inv : forall i n r stack (m : sm), inv stack m -> R i -> nth_error h i = Some n -> has_dot (nd_str n) = false ->
  (forall o, In o (nd_outs n) -> has_dot o = false) ->
  match nd_outs n with
  | [o] => exists u, expands num r u /\ good i o u
  | outs => exists l, r = Arr l /\ length l = length outs /\
              forall p o x, nth_error outs p = Some o -> nth_error l p = Some x -> exists u, expands num x u /\ good i o u
  end ->
  exists m', save_results m (nd_str n) (nd_outs n) r = Ok m' /\ inv stack m' /\ sm_seen m' = sm_seen m /\
    kept (sm_gs m) (sm_gs m') /\ (forall o, In o (nd_outs n) -> look (sm_gs m') (nd_str n) o <> None).
Proof.
  intros i n r stack m I Hi En D1 D2 HO. rewrite save_alt.
  destruct (nd_outs n) as [|o [|o2 outs]] eqn:EO.
  - destruct HO as (l & -> & HL & HG). rewrite HL. cbn [length Nat.eqb negb].
    destruct l; [|discriminate]. simpl. exists m. split; auto. split; auto. split; auto. split; [apply kept_refl|intros o []].
  - destruct HO as (u & U1 & U2). destruct (sm_set_inv stack m i n o r u) as (m1 & E1 & I1 & S1 & K1 & L1); auto.
    { apply D2. now left. } { apply store_value_cases; auto. }
    exists m1. split; auto. split; auto. split; auto. split; auto. intros o' [->|[]]; auto.
  - destruct HO as (l & -> & HL & HG). rewrite HL, Nat.eqb_refl. cbn [negb].
    apply save_all_inv with (i := i); auto.
Qed.

Lemma const_stored : forall v : value A, store_value num (if num =? 1 then v else Arr (repeat v num)) = Ok (if num =? 1 then v else Arr (repeat v num)).
Proof.
  intros v. unfold store_value. destruct (num =? 1); auto. now rewrite repeat_length, Nat.eqb_refl.
Qed.

Definition ok_step (stack : list nat) (f : nat) : Prop := forall (m : sm) j, inv stack m -> R j -> (forall k, In k stack -> rank j < rank k) ->
  exists m', sample_helper func f h m j = Ok m' /\ inv stack m' /\ kept (sm_gs m) (sm_gs m') /\
    (forall str x, dget str (sm_seen m) = Some x -> dget str (sm_seen m') = Some x) /\
    (exists n, nth_error h j = Some n /\ dget (nd_str n) (sm_seen m') = Some j).

(** The loop over the parameters of one node. *)
Lemma params_ok : forall stack f i n, R i -> nth_error h i = Some n -> In i stack -> ok_step stack f ->
  (forall k, In k stack -> k = i \/ rank i < rank k) ->
  forall todo doing (m : sm), nd_setters n = doing ++ todo -> inv stack m ->
  (forall name s, In (name, s) doing -> st_type s <> SCompute -> look (sm_gs m) (nd_str n) name <> None) ->
  exists m', fold_res (sample_param (sample_helper func f h) h i n) m todo = Ok m' /\ inv stack m' /\ kept (sm_gs m) (sm_gs m') /\
    (forall str x, dget str (sm_seen m) = Some x -> dget str (sm_seen m') = Some x) /\
    (forall name s, In (name, s) (nd_setters n) -> st_type s <> SCompute -> look (sm_gs m') (nd_str n) name <> None).
Proof.
  intros stack f i n Hi En IS OK RK. induction todo as [|[name s] todo IH]; intros doing m ED I F.
  - rewrite app_nil_r in ED. simpl. exists m. split; auto. split; auto. split; [apply kept_refl|]. split; auto. now rewrite ED.
  - destruct (RUNS i n Hi En) as (D1 & HP & _).
    assert (IN : In (name, s) (nd_setters n)) by (rewrite ED; apply in_app_iff; right; now left).
    destruct (HP name s IN) as (D2 & HT).
    (* the node it depends on *)
    assert (DEP : exists m1, (match st_dep s with Some j => if j =? i then Ok m else sample_helper func f h m j | None => Ok m end) = Ok m1 /\
       inv stack m1 /\ kept (sm_gs m) (sm_gs m1) /\ (forall str x, dget str (sm_seen m) = Some x -> dget str (sm_seen m1) = Some x) /\
       (forall j, st_dep s = Some j -> j <> i -> exists d, nth_error h j = Some d /\ R j /\ filled (sm_gs m1) j)).
    { destruct (st_dep s) as [j|] eqn:EJ.
      2:{ exists m. split; auto. split; auto. split; [apply kept_refl|]. split; auto. intros; discriminate. }
      destruct (j =? i) eqn:EQ.
      - apply Nat.eqb_eq in EQ. subst. exists m. split; auto. split; auto. split; [apply kept_refl|]. split; auto.
        intros j X NE. inversion X; congruence.
      - apply Nat.eqb_neq in EQ. assert (DI : depends h i j) by (exists n, name, s; auto).
        assert (Rj : R j) by (eapply CLOSED; eauto).
        assert (RJ : forall k, In k stack -> rank j < rank k).
        { intros k Hk. apply RANK in DI. destruct (RK k Hk) as [->|X]; lia. }
        destruct (OK m j I Rj RJ) as (m1 & E1 & I1 & K1 & S1 & (d & N1 & N2)).
        exists m1. split; auto. split; auto. split; auto. split; auto.
        intros j' X NE. inversion X; subst j'. exists d. split; auto. split; auto.
        eapply (i_filled _ _ I1); eauto. intros HJ. apply RJ in HJ. lia. }
    destruct DEP as (m1 & E1 & I1 & K1 & S1 & J1).
    (* the value *)
    assert (VAL : exists m2, sample_param (sample_helper func f h) h i n m (name, s) = Ok m2 /\ inv stack m2 /\ kept (sm_gs m) (sm_gs m2) /\
       (forall str x, dget str (sm_seen m) = Some x -> dget str (sm_seen m2) = Some x) /\
       (st_type s <> SCompute -> look (sm_gs m2) (nd_str n) name <> None)).
    { unfold sample_param. rewrite E1.
      assert (LINK : forall j d, st_dep s = Some j -> nth_error h j = Some d ->
         (if j =? i then exists l1 l2, nd_setters n = l1 ++ (name, s) :: l2 /\ In (st_src s) (map fst l1) /\
                           (forall s', In (st_src s, s') l1 -> st_type s' <> SCompute)
          else In (st_src s) (map fst (nd_setters d))) -> (forall v, good j (st_src s) v -> good i name v) ->
         exists m2, (match gs_item (sm_gs m1) (nd_str d) (st_src s) with Err e => Err e | Ok v => sm_set (sm_log m1 (EAssign i name)) (nd_str n) name v end) = Ok m2 /\
           inv stack m2 /\ kept (sm_gs m) (sm_gs m2) /\ (forall str x, dget str (sm_seen m) = Some x -> dget str (sm_seen m2) = Some x) /\
           look (sm_gs m2) (nd_str n) name <> None).
      { intros j d EJ Ed SRC HG.
        assert (LK : look (sm_gs m1) (nd_str d) (st_src s) <> None /\ R j).
        { destruct (j =? i) eqn:EQ.
          - apply Nat.eqb_eq in EQ. subst j. assert (d = n) by congruence. subst d. split; auto.
            destruct SRC as (l1 & l2 & Q1 & Q2 & Q3). apply in_map_iff in Q2. destruct Q2 as ([x s'] & X1 & X2). simpl in X1. subst x.
            assert (l1 = doing).
            { rewrite ED in Q1. destruct (WF i n En) as (ND & _). rewrite ED, map_app in ND. clear - Q1 ND.
              revert doing Q1 ND. induction l1 as [|a l1 IH']; intros [|b doing] Q ND; simpl in *; auto.
              - inversion Q; subst. inversion ND as [|? ? X Y]; subst. simpl in X. exfalso. apply X. apply in_app_iff. right. now left.
              - inversion Q; subst. inversion ND as [|? ? X Y]; subst. exfalso. apply X. rewrite map_app in X. 
                exfalso. apply X. apply in_app_iff. right. simpl. now left.
              - inversion Q; subst. f_equal. apply IH'; auto. now inversion ND. }
            subst l1. apply K1. eapply F; eauto.
          - apply Nat.eqb_neq in EQ. destruct (J1 j EJ EQ) as (d' & Q1 & Q2 & Q3). assert (d' = d) by congruence. subst d'.
            split; auto. apply in_map_iff in SRC. destruct SRC as ([x s'] & X1 & X2). simpl in X1. subst x. eapply Q3; eauto. }
        destruct LK as [LK Rj]. destruct (RUNS j d Rj Ed) as (Dd & _).
        destruct (item_ok (sm_gs m1) (nd_str d) (st_src s) Dd LK) as (v & V1 & V2). rewrite V1.
        assert (SV : store_value num v = Ok v).
        { apply store_value_idem. rewrite <- (i_n _ _ I1). apply (wf_var _ (i_wf _ _ I1) _ _ _ V2). }
        destruct (sm_set_inv stack (sm_log m1 (EAssign i name)) i n name v v) as (m2 & E2 & I2 & S2 & K2 & L2); auto.
        { now apply log_inv. } { apply HG. eapply (i_good _ _ I1); eauto. }
        exists m2. split; auto. split; auto. split; [eapply kept_trans; [exact K1|exact K2]|]. split; auto.
        intros str x Hx. rewrite S2. cbn [sm_log sm_seen]. auto. }
      destruct (st_type s) eqn:ET.
      - destruct HT.
      - destruct HT as (v & -> & HG). rewrite (i_n _ _ I1).
        destruct (sm_set_inv stack (sm_log m1 (EAssign i name)) i n name (if num =? 1 then v else Arr (repeat v num)) _ (log_inv _ _ _ I1) Hi En D1 D2 (const_stored v) HG)
          as (m2 & E2 & I2 & S2 & K2 & L2).
        exists m2. split; auto. split; auto. split; [eapply kept_trans; [exact K1|exact K2]|]. split; auto.
        intros str x Hx. rewrite S2. cbn [sm_log sm_seen]. auto.
      - destruct HT as (j & d & Q1 & Q2 & Q3 & Q4). rewrite Q1, Q2. destruct (LINK j d Q1 Q2 Q3 Q4) as (m2 & X1 & X2 & X3 & X4 & X5).
        exists m2. auto.
      - destruct HT as (j & d & Q1 & Q2 & Q3 & Q4). rewrite Q1, Q2. destruct (LINK j d Q1 Q2 Q3 Q4) as (m2 & X1 & X2 & X3 & X4 & X5).
        exists m2. auto.
      - exists m1. split; auto. split; auto. }
    destruct VAL as (m2 & E2 & I2 & K2 & S2 & L2).
    destruct (IH (doing ++ [(name, s)]) m2) as (m3 & E3 & I3 & K3 & S3 & L3); auto.
    { now rewrite <- app_assoc. }
    { intros nm st X T. apply in_app_iff in X. destruct X as [X|[X|[]]].
      - apply K2. eapply F; eauto.
      - inversion X; subst. auto. }
    cbn [fold_res]. rewrite E2. exists m3. split; auto. split; auto. split; [eapply kept_trans; eauto|]. split; auto.
Qed.

Lemma helper_ok : forall f stack, NoDup stack -> (forall k, In k stack -> k < length h) -> length h < f + length stack -> ok_step stack f.
Proof.
  induction f as [|f IH]; intros stack ND LT LN m i I Hi RK.
  - exfalso. destruct (EXISTS i Hi) as (n & En). assert (i < length h) by (apply nth_error_Some; congruence).
    assert (NI : ~ In i stack) by (intros X; apply RK in X; lia).
    assert (length (i :: stack) <= length (seq 0 (length h))).
    { apply NoDup_incl_length; [now constructor|]. intros k [->|Hk]; apply in_seq; [lia|]. apply LT in Hk. lia. }
    rewrite seq_length in H0. simpl in *. lia.
  - cbn [sample_helper]. destruct (EXISTS i Hi) as (n & En). rewrite En.
    destruct (dget (nd_str n) (sm_seen m)) as [j|] eqn:ES.
    + destruct (i_seen _ _ I _ _ ES) as (Rj & nj & Ej & Sj). assert (j = i) by (eapply DISTINCT; eauto). subst j.
      rewrite Nat.eqb_refl. exists m. split; auto. split; auto. split; [apply kept_refl|]. split; auto. exists n. auto.
    + assert (Hlt : i < length h) by (apply nth_error_Some; congruence).
      assert (NI : ~ In i stack) by (intros X; apply RK in X; lia).
      set (m0 := mkSM (sm_gs m) (dset (nd_str n) i (sm_seen m)) (sm_w m) (sm_tr m ++ [EEnter i])).
      assert (I0 : inv (i :: stack) m0).
      { constructor; cbn [m0 sm_gs sm_seen sm_w]; try apply I.
        - intros str j Ej. rewrite dget_dset in Ej. destruct (String.eqb str (nd_str n)) eqn:EQ.
          + inversion Ej; subst. apply String.eqb_eq in EQ. subst. split; eauto.
          + eapply (i_seen _ _ I); eauto.
        - intros str j Ej NIj. rewrite dget_dset in Ej. destruct (String.eqb str (nd_str n)) eqn:EQ.
          + inversion Ej; subst. exfalso. apply NIj. now left.
          + eapply (i_filled _ _ I); eauto. intros X. apply NIj. now right. }
      assert (OK : ok_step (i :: stack) f).
      { apply IH; [now constructor| |simpl; lia]. intros k [->|Hk]; auto. }
      destruct (params_ok (i :: stack) f i n Hi En (or_introl eq_refl) OK) with (todo := nd_setters n) (doing := @nil (string * setter A)) (m := m0)
        as (m2 & E2 & I2 & K2 & S2 & L2); auto.
      { intros k [->|Hk]; auto. }
      fold m0. rewrite E2.
      destruct (RUNS i n Hi En) as (D1 & HP & HF).
      assert (CMP : exists m3, (if existsb (fun ps => is_compute (snd ps)) (nd_setters n) then compute func (sm_log m2 (ECompute i)) i n [] else Ok m2) = Ok m3 /\
         inv (i :: stack) m3 /\ kept (sm_gs m2) (sm_gs m3) /\ sm_seen m3 = sm_seen m2 /\ filled (sm_gs m3) i).
      { destruct (existsb _ (nd_setters n)) eqn:EX.
        - apply existsb_exists in EX. destruct EX as ([nm st] & X1 & X2). simpl in X2. unfold is_compute in X2.
          assert (ST : st_type st = SCompute) by (destruct (st_type st); auto; discriminate).
          destruct (HP nm st X1) as (_ & Q). rewrite ST in Q. destruct Q as [FN _].
          assert (EXC : exists name s, In (name, s) (nd_setters n) /\ st_type s = SCompute) by eauto.
          destruct (HF EXC FN) as (F1 & F2 & F3). unfold compute. rewrite FN. cbn [negb].
          destruct (nd_func n) as [fnm|] eqn:EFN; [|congruence].
          cbn [sm_log sm_gs sm_w sm_seen sm_tr].
          destruct (inputs_ok (sm_gs m2) (nd_str n) (nd_args n) D1) as (args & EA).
          { intros a Ha. destruct (F2 a Ha) as (s & Y1 & Y2). eapply L2; eauto. }
          rewrite EA. destruct (build_inputs_spec _ _ _ _ _ EA) as (B1 & B2).
          destruct (F3 (sm_w m2) args (i_fine _ _ I2) B1) as (w' & r & R1 & R2 & R3).
          { intros a v Hav. destruct (B2 _ _ Hav) as [X|[_ X]]; [discriminate|]. eapply (i_good _ _ I2); eauto. }
          rewrite R1.
          destruct (save_inv i n r (i :: stack) (mkSM (sm_gs m2) (sm_seen m2) w' (sm_tr m2 ++ [ECompute i]))) as (m3 & E3 & I3 & S3 & K3 & L3); auto.
          { apply (world_inv (i :: stack) (sm_log m2 (ECompute i))); auto. now apply log_inv. }
          { intros o Ho. destruct (WF i n En) as (_ & _ & WO). destruct (WO o Ho) as (s & Y1 & Y2). apply (HP o s Y1). }
          exists m3. split; auto. split; auto. split; auto. split; auto.
          intros n' name s En' IN. assert (n' = n) by congruence. subst n'.
          destruct (st_type s) eqn:ET; try (apply K3; eapply L2; eauto; congruence).
          apply L3. destruct (HP name s IN) as (_ & Q). rewrite ET in Q. apply Q.
        - exists m2. split; auto. split; auto. split; [apply kept_refl|]. split; auto.
          intros n' name s En' IN. assert (n' = n) by congruence. subst n'. eapply L2; eauto. intros ST.
          assert (TR : existsb (fun ps => is_compute (snd ps)) (nd_setters n) = true).
          { apply existsb_exists. exists (name, s). split; auto. simpl. unfold is_compute. now rewrite ST. }
          congruence. }
      destruct CMP as (m3 & E3 & I3 & K3 & S3 & F3). rewrite E3. eexists. split; [reflexivity|].
      assert (GOTi : dget (nd_str n) (sm_seen m3) = Some i).
      { rewrite S3. apply S2. cbn [m0 sm_seen]. apply dget_dset_same. }
      cbn [sm_log sm_gs sm_seen sm_w]. split; [|split; [eapply kept_trans; [exact K2|exact K3]|split]].
      * constructor; cbn [sm_log sm_gs sm_seen sm_w]; try apply I3.
        intros str j Ej NIj. destruct (Nat.eq_dec j i) as [->|NE]; auto. eapply (i_filled _ _ I3); eauto.
        intros [X|X]; [congruence|tauto].
      * intros str x Hx. rewrite S3. apply S2. cbn [m0 sm_seen]. rewrite dget_dset_other; auto. intros ->. congruence.
      * exists n. auto.
Qed.
End P.

(** ** C103 *)
(** The given values can be used in [num] samples and are good for the parameters they fix. *)
Definition given_fits {A} (good : nat -> string -> value A -> Prop) (h h' : nheap A) (root num : nat) (g : given A) : Prop :=
  (match g with GState t => gs_n t = num \/ gs_n t = 1 | _ => True end) /\
  forall nd name v, given_value g nd name v ->
    has_dot nd = false /\ has_dot name = false /\ ~ wrong_length num v /\
    forall k n u, reaches h root k -> nth_error h' k = Some n -> nd_str n = nd -> expands num v u -> good k name u.

Lemma fits_expands : forall A num (v : value A), ~ wrong_length num v -> exists u, expands num v u.
Proof.
  intros A num v H. destruct (Nat.eq_dec num 1) as [->|NE]; [exists v; left; auto|]. destruct v as [a|l].
  - exists (Arr (repeat (Atom a) num)). right. split; auto. left. eauto.
  - exists (Arr l). right. split; auto. right. exists l. split; auto. split; auto.
    destruct (Nat.eq_dec (length l) num) as [|X]; auto. exfalso. apply H. split; eauto.
Qed.
Lemma start_ok : forall A good (h h' : nheap A) root g num, (1 <= num)%Z -> valid_given g ->
  given_fits good h h' root (Z.to_nat num) g -> exists s, start_state g num = Ok s.
Proof.
  intros A good h h' root g num HN V [G1 G2]. unfold start_state, gs_new.
  destruct (num <? 1)%Z eqn:EN; [apply Z.ltb_lt in EN; lia|].
  assert (HN' : 1 <= Z.to_nat num) by lia. assert (Wf := @wf_fresh A _ HN').
  assert (ALL : forall l, (forall nd name v, In (nd, name, v) l -> given_value g nd name v) ->
     exists s', gs_set_all (gs_fresh (Z.to_nat num)) l true = (s', None)).
  { intros l HL. apply set_all_ok; auto. intros [[nd name] v] IN. simpl. destruct (G2 _ _ _ (HL _ _ _ IN)) as (D1 & D2 & D3 & _).
    split; auto. split; auto. destruct (fits_expands _ _ _ D3) as (u & U). exists u. now apply store_value_cases. }
  destruct g as [|d|t].
  - eauto.
  - unfold gs_update_dict. destruct (ALL (entries d)) as (s' & ->); [|eauto]. intros nd name v IN. now apply in_entries in IN.
  - unfold gs_update. simpl gs_n.
    assert (negb (Z.to_nat num =? gs_n t) && negb (gs_n t =? 1) = false) as ->.
    { destruct G1 as [-> | ->]; [now rewrite Nat.eqb_refl|]. simpl. apply andb_false_r. }
    destruct (ALL (entries (gs_states t))) as (s' & ->); [|eauto]. intros nd name v IN. simpl. unfold reads.
    simpl in V. apply reads_look; auto. apply look_In; auto.
Qed.

Theorem C103_sampling_succeeds : forall A W (func : W -> nat -> dict (value A) -> W * result (value A))
    (fine : W -> Prop) (good : nat -> string -> value A -> Prop) fuel h root g num w h',
  well_formed h -> valid_given g -> no_dangling h -> acyclic h -> (1 <= num)%Z -> length h < fuel -> fine w ->
  start_heap fuel h root = Ok h' -> distinct_names h h' root ->
  (forall k n, reaches h root k -> nth_error h' k = Some n -> node_runs func fine good h' (Z.to_nat num) k n) ->
  given_fits good h h' root (Z.to_nat num) g ->
  exists m, sample_parameters func fuel h root g num w = Ok (h', m) /\ fine (sm_w m) /\ gs_n (sm_gs m) = Z.to_nat num /\
    forall k n name s, reaches h root k -> nth_error h' k = Some n -> In (name, s) (nd_setters n) ->
      exists v, reads (sm_gs m) (nd_str n) name v /\ good k name v.
Proof.
  intros A W func fine good fuel h root g num w h' WF VG ND [rank AC] HN HF FW EH DN RUNS GF.
  destruct (start_ok _ _ _ _ _ _ _ HN VG GF) as (s0 & ES).
  destruct (start_state_spec _ _ _ _ VG ES) as (S1 & S2 & S3 & S4 & S5 & S6).
  assert (WF' := start_heap_wf _ _ _ _ _ EH WF).
  destruct (start_heap_spec _ _ _ _ _ EH) as [LEN SH].
  assert (RT : root < length h).
  { unfold start_heap in EH. apply nth_error_Some. destruct (nth_error h root); [discriminate|discriminate EH]. }
  assert (EX : forall k, reaches h root k -> exists n, nth_error h' k = Some n).
  { intros k HR. assert (k < length h).
    { apply clos_rt_rtn1 in HR. destruct HR as [|x k HD _]; auto. eapply ND; eauto. }
    destruct (nth_error h' k) eqn:E; eauto. apply nth_error_None in E. lia. }
  assert (I0 : inv fine good h' (Z.to_nat num) (reaches h root) [] (mkSM s0 [] w [])).
  { constructor; cbn [sm_gs sm_seen sm_w]; auto; try discriminate.
    intros k n name v HR En HL. assert (FX := S6 _ _ _ HL).
    assert (GX : exists v0, given_value g (nd_str n) name v0).
    { apply S4. unfold fixed_in. unfold is_fixed in FX. destruct (dget (nd_str n) (gs_fixed s0)) as [l|]; [|discriminate].
      exists l. split; auto. now apply smem_In. }
    destruct GX as (v0 & GV). destruct (S5 _ _ _ GV) as (u & U1 & U2). assert (u = v) by congruence. subst u.
    destruct GF as [_ GF]. destruct (GF _ _ _ GV) as (_ & _ & _ & Q). eapply Q; eauto. now rewrite <- S2. }
  assert (HO : ok_step func fine good h' (Z.to_nat num) (reaches h root) rank [] fuel).
  { apply helper_ok; auto.
    - lia.
    - intros k j HR HD. eapply rt_trans; [exact HR|]. apply rt_step. now apply (start_heap_deps _ _ _ _ _ k j EH).
    - intros i j HD. apply AC. now apply (start_heap_deps _ _ _ _ _ i j EH).
    - constructor.
    - intros k [].
    - simpl. lia. }
  destruct (HO (mkSM s0 [] w []) root I0) as (m & E & I & K & SS & (n0 & N1 & N2)).
  { apply rt_refl. } { intros k []. }
  assert (RUN : sample_parameters func fuel h root g num w = Ok (h', m)).
  { unfold sample_parameters. rewrite EH, ES, E. reflexivity. }
  exists m. split; auto. split; [apply (i_fine _ _ _ _ _ _ _ I)|]. split; [apply (i_n _ _ _ _ _ _ _ I)|].
  intros k n name s HR En IN.
  destruct (run_facts _ _ _ _ _ _ _ _ _ _ _ WF VG RUN) as (s1 & _ & _ & _ & Wf & _ & SO & ID & _).
  assert (SEEN : dget (nd_str n) (sm_seen m) = Some k).
  { apply ID in HR. unfold ids in HR. apply in_map_iff in HR. destruct HR as ([str x] & X1 & X2). simpl in X1. subst x.
    destruct SO as [NDs SO]. destruct (SO _ _ X2) as (n' & Y1 & Y2). assert (n' = n) by congruence. subst.
    apply In_dget; auto. }
  assert (F := i_filled _ _ _ _ _ _ _ I _ _ SEEN (fun x => x) n name s En IN).
  destruct (look (sm_gs m) (nd_str n) name) as [v|] eqn:EL; [|congruence].
  exists v. split; [unfold reads; apply reads_look; auto|]. eapply (i_good _ _ _ _ _ _ _ I); eauto.
Qed.
(** Automatic and given names of the reachable nodes always exist (C17_terminates): *)
Theorem C103_names_exist : forall A fuel (h : nheap A) root, no_dangling h -> root < length h -> length h < fuel ->
  exists h', start_heap fuel h root = Ok h'.
Proof.
  intros A fuel h root HD HR HF. unfold start_heap. destruct (nth_error h root) as [n|] eqn:E.
  - destruct (nd_pos n); eauto. destruct (C17_terminates A h root fuel HD HR HF) as (h' & seen & ->). eauto.
  - apply nth_error_None in E. lia.
Qed.
(** ** A case: the model of C18 with both a link to a shared node and a function of two outputs, for any number of samples. *)
Lemma ex_start : exists h', start_heap 5 ex_heap 0 = Ok h' /\ map (fun n => nd_str n) h' = ["Src_0"; "FunctionNode:f_2"; "base"] /\
  map (fun n => nd_setters n) h' = map (fun n => nd_setters n) ex_heap /\ map (fun n => nd_outs n) h' = [[]; ["lo"; "hi"]; []] /\
  map (fun n => nd_args n) h' = [[]; ["a"; "b"]; []] /\ map (fun n => nd_fn n) h' = [false; true; false] /\
  map (fun n => nd_func n) h' = [None; Some "f"; None].
Proof. eexists. split; [vm_compute; reflexivity|]. repeat split. Qed.
Definition shaped (num : nat) (v : value Z) : Prop := num = 1 \/ exists l, v = Arr l /\ length l = num.
Lemma shaped_const : forall num v, shaped num (if num =? 1 then v else Arr (repeat v num)).
Proof.
  intros num v. destruct (num =? 1) eqn:E; [apply Nat.eqb_eq in E; now left|]. right. eexists. split; [reflexivity|apply repeat_length].
Qed.
Lemma shaped_expands : forall num v, 1 <= num -> shaped num v -> exists u, expands num v u /\ shaped num u.
Proof.
  intros num v HN H. exists v. split; auto. destruct (Nat.eq_dec num 1) as [->|NE]; [left; auto|]. right. split; auto. right.
  destruct H as [H|(l & -> & HL)]; [congruence|]. exists l. auto.
Qed.
Theorem C103_case : forall num w, (1 <= num)%Z -> exists h' m,
  sample_parameters ex_func 5 ex_heap 0 GNone num w = Ok (h', m) /\
  forall k n name s, reaches ex_heap 0 k -> nth_error h' k = Some n -> In (name, s) (nd_setters n) ->
    exists v, reads (sm_gs m) (nd_str n) name v /\ shaped (Z.to_nat num) v.
Proof.
  intros num w HN. destruct ex_start as (h' & EH & X1 & X2 & X3 & X4 & X5 & X6).
  assert (HK : 1 <= Z.to_nat num) by lia.
  destruct h' as [|n0 [|n1 [|n2 [|]]]]; try discriminate.
  cbn [map ex_heap ex_node nd_str nd_setters nd_outs nd_args nd_fn nd_func] in X1, X2, X3, X4, X5, X6.
  injection X1 as A0 A1 A2. injection X2 as B0 B1 B2. injection X3 as C0 C1 C2. injection X4 as D0 D1 D2. injection X5 as E0 E1 E2.
  injection X6 as F0 F1 F2.
  destruct (C103_sampling_succeeds Z nat ex_func (fun _ => True) (fun _ _ v => shaped (Z.to_nat num) v) 5 ex_heap 0 GNone num w [n0; n1; n2])
    as (m & M1 & M2 & M3 & M4); auto; try exact I.
  - apply ex_heap_wf.
  - intros i j H. apply depends_ndeps in H.
    destruct i as [|[|[|[|i]]]]; simpl in H; repeat (destruct H as [<-|H]; [simpl; lia|]); destruct H.
  - apply ex_heap_acyclic.
  - intros k1 k2 m1 m2 _ _ H1 H2 EQ.
    destruct k1 as [|[|[|[|]]]]; try discriminate; (destruct k2 as [|[|[|[|]]]]; try discriminate);
      cbn in H1, H2; injection H1 as <-; injection H2 as <-; auto; congruence.
  - intros k n _ En. destruct k as [|[|[|[|]]]]; try discriminate; cbn in En; injection En as <-; unfold node_runs, param_runs, function_runs.
    + rewrite A0, B0. split; [reflexivity|]. split.
      * intros name s [H|[H|[H|[]]]]; injection H as <- <-; (split; [reflexivity|]); cbn [as_parameter as_function as_constant st_type st_dep st_src st_const].
        -- exists 2, n2. split; [reflexivity|]. split; [reflexivity|]. split; [cbn [Nat.eqb]; rewrite B2; simpl; tauto|auto].
        -- exists 1, n1. split; [reflexivity|]. split; [reflexivity|]. split; [cbn [Nat.eqb]; rewrite B1; simpl; tauto|auto].
        -- eexists. split; [reflexivity|]. apply shaped_const.
      * rewrite E0. discriminate.
    + rewrite A1, B1, C1, D1, E1, F1. split; [reflexivity|]. split.
      * intros name s [H|[H|[H|[H|[]]]]]; injection H as <- <-; (split; [reflexivity|]); cbn [as_parameter as_function as_constant as_compute_output st_type st_dep st_src st_const].
        -- exists 2, n2. split; [reflexivity|]. split; [reflexivity|]. split; [cbn [Nat.eqb]; rewrite B2; simpl; tauto|auto].
        -- eexists. split; [reflexivity|]. apply shaped_const.
        -- simpl. auto.
        -- simpl. auto.
      * intros _ _. split; [discriminate|]. split.
        -- intros a [<-|[<-|[]]]; eexists; (split; [simpl; eauto|discriminate]).
        -- intros w0 args _ EA HG. destruct args as [|[a va] [|[b vb] [|]]]; try discriminate. injection EA as -> ->.
           exists (S w0), (Arr [vb; va]). split; [reflexivity|]. split; [exact I|]. exists [vb; va]. split; auto. split; auto.
           intros [|[|p]] o x Ho Hx; cbn in Ho, Hx; try (destruct p; discriminate); injection Ho as <-; injection Hx as <-.
           ++ apply shaped_expands; auto. apply (HG "b"). simpl; auto.
           ++ apply shaped_expands; auto. apply (HG "a"). simpl; auto.
    + rewrite A2, B2. split; [reflexivity|]. split.
      * intros name s [H|[]]; injection H as <- <-. split; [reflexivity|]. eexists. split; [reflexivity|]. apply shaped_const.
      * rewrite E2. discriminate.
  - split; [exact I|]. intros nd name v [].
  - exists [n0; n1; n2], m. auto.
Qed.
Print Assumptions C103_sampling_succeeds.
Print Assumptions C103_case.
