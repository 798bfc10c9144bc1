(** Lemmas about sampling: completeness of the run for every reachable node. *)
From Coq Require Import String Ascii List Bool Arith ZArith Lia Relations.
From Verif Require Import Base BaseFacts Numerals GraphStateModel GraphStateProofs GraphStateProofs2
  NodeGraphModel NodeGraphProofs NodeSampleProofs NodeSampleProofs2.
Import ListNotations.
Open Scope string_scope.
Open Scope list_scope.
Open Scope nat_scope.

Section P.
Context {A W : Type}.
Variable func : W -> nat -> dict (value A) -> W * result (value A).
Notation node := (node A).
Notation nheap := (nheap A).
Notation sm := (sm A W).

Definition fully (h : nheap) (k : nat) (tr : list event) : Prop :=
  exists n, nth_error h k = Some n /\ In (EEnter k) tr /\ In (ELeave k) tr /\
    (forall name s, In (name, s) (nd_setters n) -> st_type s <> SCompute -> In (EAssign k name) tr) /\
    (existsb (fun ps => is_compute (snd ps)) (nd_setters n) = true -> In (ECompute k) tr).
Definition comp_ordered (h : nheap) (tr : list event) : Prop :=
  forall t1 k t2 n name s, tr = t1 ++ ECompute k :: t2 -> nth_error h k = Some n ->
    In (name, s) (nd_setters n) -> st_type s <> SCompute -> In (EAssign k name) t1.

Lemma fully_mono : forall h k t t', (forall e, In e t -> In e t') -> fully h k t -> fully h k t'.
Proof. intros h k t t' H (n & H1 & H2 & H3 & H4 & H5). exists n. sp; auto. intros. apply H. eauto. Qed.

Lemma comp_snoc : forall h tr e, comp_ordered h tr ->
  (forall k n name s, e = ECompute k -> nth_error h k = Some n -> In (name, s) (nd_setters n) ->
     st_type s <> SCompute -> In (EAssign k name) tr) ->
  comp_ordered h (tr ++ [e]).
Proof.
  intros h tr e HO HE t1 k t2 n name s E HN HS HD.
  destruct (rev t2) as [|x r] eqn:ER.
  - assert (t2 = []) by (rewrite <- (rev_involutive t2), ER; auto). subst.
    apply app_inj_tail in E. destruct E as [E1 E2]; subst; eauto.
  - assert (T : t2 = rev r ++ [x]) by (rewrite <- (rev_involutive t2), ER; auto). subst t2.
    rewrite app_comm_cons, app_assoc in E. apply app_inj_tail in E. destruct E as [E1 E2]; subst; eauto.
Qed.

Lemma done_spec : forall fuel h (m : sm) i m', comp_ordered h (sm_tr m) ->
  sample_helper func fuel h m i = Ok m' ->
  comp_ordered h (sm_tr m') /\ (forall e, In e (sm_tr m) -> In e (sm_tr m')) /\
  (forall k, In k (ids (sm_seen m')) -> In k (ids (sm_seen m)) \/ (reach h i k /\ fully h k (sm_tr m'))).
Proof.
  induction fuel as [|f IH]; intros h m i m' CO H; [discriminate|]. cbn [sample_helper] in H.
  destruct (nth_error h i) as [n|] eqn:EN; [|discriminate].
  destruct (dget (nd_str n) (sm_seen m)) as [j|] eqn:ES.
  { destruct (j =? i) eqn:EJ; [|discriminate]. inversion H; subst. sp; auto. }
  set (m1 := mkSM (sm_gs m) (dset (nd_str n) i (sm_seen m)) (sm_w m) (sm_tr m ++ [EEnter i])) in *.
  assert (L : forall ps (ma mb : sm), (forall p, In p ps -> In p (nd_setters n)) ->
     comp_ordered h (sm_tr ma) ->
     fold_res (sample_param (sample_helper func f h) h i n) ma ps = Ok mb ->
     comp_ordered h (sm_tr mb) /\ (forall e, In e (sm_tr ma) -> In e (sm_tr mb)) /\
     (forall k, In k (ids (sm_seen mb)) -> In k (ids (sm_seen ma)) \/ (reach h i k /\ fully h k (sm_tr mb))) /\
     (forall name s, In (name, s) ps -> st_type s <> SCompute -> In (EAssign i name) (sm_tr mb))).
  { induction ps as [|[name s] ps IHp]; intros ma mb HP CA HF; cbn [fold_res] in HF.
    - inversion HF; subst. sp; auto. simpl; tauto.
    - destruct (sample_param (sample_helper func f h) h i n ma (name, s)) as [mc|] eqn:EP; [|discriminate].
      assert (HIn : In (name, s) (nd_setters n)) by (apply HP; now left).
      assert (R : exists md, (match st_dep s with Some j => if j =? i then Ok ma else sample_helper func f h ma j
                              | None => Ok ma end) = Ok md /\
                 comp_ordered h (sm_tr md) /\ (forall e, In e (sm_tr ma) -> In e (sm_tr md)) /\
                 (forall k, In k (ids (sm_seen md)) -> In k (ids (sm_seen ma)) \/ (reach h i k /\ fully h k (sm_tr md)))).
      { unfold sample_param in EP. destruct (st_dep s) as [j|] eqn:ED; [|exists ma; sp; auto].
        destruct (j =? i) eqn:EJ; [exists ma; sp; auto|].
        destruct (sample_helper func f h ma j) as [md|] eqn:ER; [|discriminate].
        assert (IJ : In j (ndeps h i)).
        { unfold ndeps. rewrite EN. unfold sdeps. apply in_flat_map. exists s. split.
          - apply in_map_iff. exists (name, s); auto.
          - rewrite ED, EJ. now left. }
        destruct (IH h ma j md) as (P1 & P2 & P3); auto.
        exists md. sp; auto. intros k Hk. destruct (P3 k Hk) as [Q|[Q1 Q2]]; auto. right. split; auto.
        eapply rt_trans; [apply rt_step; exact IJ|exact Q1]. }
      destruct R as (md & ER & D1 & D2 & D3).
      assert (S : sm_seen mc = sm_seen md /\ (sm_tr mc = sm_tr md /\ st_type s = SCompute \/ sm_tr mc = sm_tr md ++ [EAssign i name])).
      { unfold sample_param in EP. rewrite ER in EP. destruct (st_type s); try discriminate.
        - destruct (st_const s); [|discriminate]. apply sm_set_frame in EP. simpl in EP. intuition.
        - destruct (st_dep s) as [j|]; [|discriminate]. destruct (nth_error h j); [|discriminate].
          destruct (gs_item _ _ _); [|discriminate]. apply sm_set_frame in EP. simpl in EP. intuition.
        - destruct (st_dep s) as [j|]; [|discriminate]. destruct (nth_error h j); [|discriminate].
          destruct (gs_item _ _ _); [|discriminate]. apply sm_set_frame in EP. simpl in EP. intuition.
        - inversion EP; subst. auto. }
      destruct S as [S1 S2].
      assert (MO : forall e, In e (sm_tr md) -> In e (sm_tr mc)).
      { destruct S2 as [[-> _]| ->]; auto. intros. rewrite in_app_iff. auto. }
      assert (CC : comp_ordered h (sm_tr mc)).
      { destruct S2 as [[-> _]| ->]; auto. apply comp_snoc; auto. discriminate. }
      destruct (IHp mc mb) as (Q1 & Q2 & Q3 & Q4); auto.
      { intros p Hp. apply HP. now right. }
      sp; auto.
      + intros k Hk. destruct (Q3 k Hk) as [Q|Q]; auto. rewrite S1 in Q. destruct (D3 k Q) as [R|[R1 R2]]; auto.
        right. split; auto. eapply fully_mono; [|exact R2]. auto.
      + intros name' s' [E|HI] HT; [|eauto]. inversion E; subst. apply Q2.
        destruct S2 as [[_ Q]| ->]; [congruence|]. rewrite in_app_iff. right. now left. }
  destruct (fold_res (sample_param (sample_helper func f h) h i n) m1 (nd_setters n)) as [m2|] eqn:EF; [|discriminate].
  destruct (L (nd_setters n) m1 m2) as (Q1 & Q2 & Q3 & Q4); auto.
  { unfold m1; simpl. apply comp_snoc; auto. discriminate. }
  assert (E3 : exists tc, sm_seen m' = sm_seen m2 /\ sm_tr m' = sm_tr m2 ++ tc ++ [ELeave i] /\
               (existsb (fun ps => is_compute (snd ps)) (nd_setters n) = false /\ tc = [] \/ tc = [ECompute i])).
  { destruct (existsb _ (nd_setters n)).
    - destruct (compute func (sm_log m2 (ECompute i)) i n []) as [m3|] eqn:EC; [|discriminate].
      apply compute_frame in EC. simpl in EC. inversion H; subst. simpl. exists [ECompute i].
      destruct EC as [-> ->]. rewrite <- app_assoc. auto.
    - inversion H; subst. exists []. auto. }
  destruct E3 as (tc & F1 & F2 & F3).
  assert (MO : forall e, In e (sm_tr m2) -> In e (sm_tr m')) by (intros; rewrite F2, in_app_iff; auto).
  sp.
  - rewrite F2, app_assoc. apply comp_snoc; [|discriminate].
    destruct F3 as [[_ ->]| ->]; [now rewrite app_nil_r|]. apply comp_snoc; auto.
    intros k n' name s E EK. inversion E; subst. assert (n' = n) by congruence. subst. apply Q4.
  - intros e He. apply MO, Q2. unfold m1; simpl. rewrite in_app_iff. auto.
  - intros k Hk. rewrite F1 in Hk. destruct (Q3 k Hk) as [Q|[R1 R2]].
    + unfold m1 in Q; cbn [sm_seen] in Q. rewrite ids_dset in Q by auto.
      apply in_app_iff in Q. destruct Q as [Q|[<-|[]]]; auto. right. split; [apply rt_refl|].
      exists n. sp; auto.
      * apply MO, Q2. unfold m1; simpl. rewrite in_app_iff. right. now left.
      * rewrite F2, !in_app_iff. right; right. now left.
      * intros name s HI HT. apply MO. eauto.
      * intros HX. rewrite F2, !in_app_iff. destruct F3 as [[Q _]| ->]; [congruence|]. right; left. now left.
    + right. split; auto. eapply fully_mono; [|exact R2]. auto.
Qed.
End P.
