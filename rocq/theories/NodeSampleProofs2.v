(** Lemmas about sampling: order of events in acyclic graphs, and the sampled values. *)
From Coq Require Import String Ascii List Bool Arith ZArith Lia Relations.
From Verif Require Import Base BaseFacts Numerals GraphStateModel GraphStateProofs GraphStateProofs2
  NodeGraphModel NodeGraphProofs NodeSampleProofs.
Import ListNotations.
Open Scope string_scope.
Open Scope list_scope.
Open Scope nat_scope.

Section P.
Context {A W : Type}.
Variable func : W -> nat -> dict (value A) -> W * result (value A).
Notation node := (node A).
Notation nheap := (nheap A).
Notation setter := (setter A).
Notation sm := (sm A W).
Notation value := (value A).
Notation gs := (gs A).

(** ** Order *)
(** Every assignment of a parameter that links to another node comes after that node was left. *)
Definition ordered (h : nheap) (tr : list event) : Prop :=
  forall t1 k name t2 n s j, tr = t1 ++ EAssign k name :: t2 ->
    nth_error h k = Some n -> In (name, s) (nd_setters n) -> st_dep s = Some j -> j <> k ->
    In (ELeave j) t1.

Lemma ordered_snoc : forall h tr e, ordered h tr ->
  (forall k name n s j, e = EAssign k name -> nth_error h k = Some n -> In (name, s) (nd_setters n) ->
     st_dep s = Some j -> j <> k -> In (ELeave j) tr) ->
  ordered h (tr ++ [e]).
Proof.
  intros h tr e HO HE t1 k name t2 n s j E HN HS HD NE.
  destruct (rev t2) as [|x r] eqn:ER.
  - assert (t2 = []) by (rewrite <- (rev_involutive t2), ER; auto). subst.
    apply app_inj_tail in E. destruct E as [E1 E2]; subst; eauto.
  - assert (T : t2 = rev r ++ [x]) by (rewrite <- (rev_involutive t2), ER; auto). subst t2.
    rewrite app_comm_cons, app_assoc in E. apply app_inj_tail in E. destruct E as [E1 E2]; subst; eauto.
Qed.

Definition settled (stack : list nat) (m : sm) : Prop :=
  forall k, In k (ids (sm_seen m)) -> In (ELeave k) (sm_tr m) \/ In k stack.

Lemma ids_dset : forall k i (d : dict nat), dget k d = None -> ids (dset k i d) = ids d ++ [i].
Proof. intros. rewrite dset_new by now apply dget_None. apply map_app. Qed.

Lemma order_spec : forall fuel h rank stack (m : sm) i m',
  (forall k n, nth_error h k = Some n -> NoDup (dkeys (nd_setters n))) ->
  (forall a b, In b (ndeps h a) -> rank b < rank a) ->
  (forall k, In k stack -> rank i < rank k) ->
  settled stack m -> ordered h (sm_tr m) ->
  sample_helper func fuel h m i = Ok m' ->
  settled stack m' /\ ordered h (sm_tr m') /\ In (ELeave i) (sm_tr m') /\
  (forall e, In e (sm_tr m) -> In e (sm_tr m')).
Proof.
  induction fuel as [|f IH]; intros h rank stack m i m' HW HR HS ST OR H; [discriminate|].
  cbn [sample_helper] in H.
  destruct (nth_error h i) as [n|] eqn:EN; [|discriminate].
  destruct (dget (nd_str n) (sm_seen m)) as [j|] eqn:ES.
  { destruct (j =? i) eqn:EJ; [|discriminate]. inversion H; subst. apply Nat.eqb_eq in EJ; subst.
    sp; auto. destruct (ST i) as [Q|Q]; auto.
    - apply dget_In in ES. apply in_map_iff. exists (nd_str n, i). auto.
    - apply HS in Q. lia. }
  set (m1 := mkSM (sm_gs m) (dset (nd_str n) i (sm_seen m)) (sm_w m) (sm_tr m ++ [EEnter i])) in *.
  assert (ST1 : settled (i :: stack) m1).
  { intros k Hk. unfold m1 in Hk; simpl in Hk. rewrite ids_dset in Hk by auto.
    apply in_app_iff in Hk. destruct Hk as [Hk|[<-|[]]]; [|right; now left].
    destruct (ST k Hk); [left; unfold m1; simpl; rewrite in_app_iff; auto|right; now right]. }
  assert (OR1 : ordered h (sm_tr m1)).
  { apply ordered_snoc; auto. discriminate. }
  assert (L : forall ps (ma mb : sm), (forall p, In p ps -> In p (nd_setters n)) ->
     settled (i :: stack) ma -> ordered h (sm_tr ma) ->
     fold_res (sample_param (sample_helper func f h) h i n) ma ps = Ok mb ->
     settled (i :: stack) mb /\ ordered h (sm_tr mb) /\
     (forall e, In e (sm_tr ma) -> In e (sm_tr mb))).
  { induction ps as [|[name s] ps IHp]; intros ma mb HP SA OA HF; cbn [fold_res] in HF.
    - inversion HF; subst. auto.
    - destruct (sample_param (sample_helper func f h) h i n ma (name, s)) as [mc|] eqn:EP; [|discriminate].
      assert (HIn : In (name, s) (nd_setters n)) by (apply HP; now left).
      assert (R : exists md, (match st_dep s with Some j => if j =? i then Ok ma else sample_helper func f h ma j
                              | None => Ok ma end) = Ok md /\
                 settled (i :: stack) md /\ ordered h (sm_tr md) /\
                 (forall e, In e (sm_tr ma) -> In e (sm_tr md)) /\
                 (forall j, st_dep s = Some j -> j <> i -> In (ELeave j) (sm_tr md))).
      { unfold sample_param in EP. destruct (st_dep s) as [j|] eqn:ED.
        - destruct (j =? i) eqn:EJ.
          + exists ma. sp; auto. intros j' E NE. inversion E; subst. apply Nat.eqb_eq in EJ. congruence.
          + destruct (sample_helper func f h ma j) as [md|] eqn:ER; [|discriminate].
            assert (IJ : In j (ndeps h i)).
            { unfold ndeps. rewrite EN. unfold sdeps. apply in_flat_map. exists s. split.
              - apply in_map_iff. exists (name, s); auto.
              - rewrite ED, EJ. now left. }
            destruct (IH h rank (i :: stack) ma j md) as (P1 & P2 & P3 & P4); auto.
            { intros k [<-|Hk]; [auto|]. apply HR in IJ. apply HS in Hk. lia. }
            exists md. sp; auto. intros j' E NE. inversion E; subst; auto.
        - exists ma. sp; auto. discriminate. }
      destruct R as (md & ER & D1 & D2 & D3 & D4).
      assert (S : sm_seen mc = sm_seen md /\ (sm_tr mc = sm_tr md \/ sm_tr mc = sm_tr md ++ [EAssign i name])).
      { unfold sample_param in EP. rewrite ER in EP. destruct (st_type s); try discriminate.
        - destruct (st_const s); [|discriminate]. apply sm_set_frame in EP. simpl in EP. intuition.
        - destruct (st_dep s) as [j|]; [|discriminate]. destruct (nth_error h j); [|discriminate].
          destruct (gs_item _ _ _); [|discriminate]. apply sm_set_frame in EP. simpl in EP. intuition.
        - destruct (st_dep s) as [j|]; [|discriminate]. destruct (nth_error h j); [|discriminate].
          destruct (gs_item _ _ _); [|discriminate]. apply sm_set_frame in EP. simpl in EP. intuition.
        - inversion EP; subst. auto. }
      destruct S as [S1 S2].
      assert (MO : forall e, In e (sm_tr md) -> In e (sm_tr mc)).
      { destruct S2 as [-> | ->]; auto. intros. rewrite in_app_iff. auto. }
      destruct (IHp mc mb) as (Q1 & Q2 & Q3); auto.
      + intros p Hp. apply HP. now right.
      + intros k Hk. rewrite S1 in Hk. destruct (D1 k Hk); auto.
      + destruct S2 as [-> | ->]; auto. apply ordered_snoc; auto.
        intros k name' n' s' j E HN HI HD NE. inversion E; subst.
        assert (n' = n) by congruence. subst n'.
        assert (s' = s).
        { assert (ND := HW _ _ EN). assert (G1 := In_dget _ _ _ _ ND HI). assert (G2 := In_dget _ _ _ _ ND HIn).
          congruence. }
        subst s'. eapply D4; eauto.
      + sp; auto. }
  destruct (fold_res (sample_param (sample_helper func f h) h i n) m1 (nd_setters n)) as [m2|] eqn:EF; [|discriminate].
  destruct (L (nd_setters n) m1 m2) as (Q1 & Q2 & Q3); auto.
  assert (E3 : exists tc, sm_seen m' = sm_seen m2 /\ sm_tr m' = sm_tr m2 ++ tc ++ [ELeave i] /\
               (tc = [] \/ tc = [ECompute i])).
  { destruct (existsb _ (nd_setters n)).
    - destruct (compute func (sm_log m2 (ECompute i)) i n []) as [m3|] eqn:EC; [|discriminate].
      apply compute_frame in EC. simpl in EC. inversion H; subst. simpl. exists [ECompute i].
      destruct EC as [-> ->]. rewrite <- app_assoc. auto.
    - inversion H; subst. exists []. auto. }
  destruct E3 as (tc & F1 & F2 & F3). sp.
  - intros k Hk. rewrite F1 in Hk. rewrite F2, !in_app_iff. destruct (Q1 k Hk) as [Q|[<-|Q]]; auto.
    left. right. right. now left.
  - rewrite F2, app_assoc. apply ordered_snoc; [|discriminate].
    destruct F3 as [-> | ->]; [now rewrite app_nil_r|]. apply ordered_snoc; auto. discriminate.
  - rewrite F2, !in_app_iff. right; right. now left.
  - intros e He. rewrite F2, in_app_iff. left. apply Q3. unfold m1; simpl. rewrite in_app_iff. auto.
Qed.

(** ** Values *)
Lemma gs_item_look : forall (g : gs) nd name v, gs_item g nd name = Ok v -> look g nd name = Some v.
Proof.
  intros g nd name v H. unfold gs_item, gs_getitem in H. unfold look.
  destruct (dget nd (gs_states g)) as [d|].
  - destruct (dget name d); inversion H; auto.
  - destruct (has_dot nd).
    + destruct (split_dot nd) as [|a [|b [|]]]; try discriminate.
      destruct (dget a (gs_states g)) as [d|]; [|discriminate]. destruct (dget b d); discriminate.
    + destruct (gs_states g) as [|[a d] [|]]; try discriminate. destruct (dget nd d); discriminate.
Qed.

(** What the recipe of one parameter promises about the final state. *)
Definition const_of (n : nat) (v : value) : value := if n =? 1 then v else Arr (repeat v n).
Definition param_ok (h : nheap) (g : gs) (nd name : string) (s : setter) : Prop :=
  is_fixed g nd name = false ->
  match st_type s with
  | SConst => exists v, st_const s = Some v /\ look g nd name = Some (const_of (gs_n g) v)
  | SModel | SFunc => exists j d v, st_dep s = Some j /\ nth_error h j = Some d /\
      look g (nd_str d) (st_src s) = Some v /\ look g nd name = Some v
  | SCompute => True
  | SUndef => False
  end.
(** ... and of the function of a node with computed outputs. *)
Definition outputs_ok (g : gs) (nd : string) (outs : list string) (r : value) : Prop :=
  match outs with
  | [o] => is_fixed g nd o = false -> exists w, store_value (gs_n g) r = Ok w /\ look g nd o = Some w
  | _ => exists l, r = Arr l /\ length l = length outs /\
           forall p o x, nth_error outs p = Some o -> nth_error l p = Some x ->
             is_fixed g nd o = false -> exists w, store_value (gs_n g) x = Ok w /\ look g nd o = Some w
  end.
Definition compute_ok (h : nheap) (g : gs) (i : nat) (n : node) : Prop :=
  nd_fn n = true -> existsb (fun ps => is_compute (snd ps)) (nd_setters n) = true ->
  exists args w w' r, func w i args = (w', Ok r) /\
    dkeys args = nd_args n /\
    (forall k v, In (k, v) args -> look g (nd_str n) k = Some v) /\
    outputs_ok g (nd_str n) (nd_outs n) r.
Definition node_ok (h : nheap) (g : gs) (k : nat) : Prop :=
  exists n, nth_error h k = Some n /\
    (forall name s, In (name, s) (nd_setters n) -> param_ok h g (nd_str n) name s) /\
    compute_ok h g k n.

(** Values are only added, nothing becomes or stops being fixed. *)
Definition grows (g g' : gs) : Prop :=
  gs_n g' = gs_n g /\ (forall nd vr, is_fixed g' nd vr = is_fixed g nd vr) /\
  (forall nd vr v, look g nd vr = Some v -> look g' nd vr = Some v).
Lemma grows_refl : forall g, grows g g.
Proof. intros; repeat split; auto. Qed.
Lemma grows_trans : forall a b c, grows a b -> grows b c -> grows a c.
Proof.
  intros a b c (A1 & A2 & A3) (B1 & B2 & B3). split; [congruence|]. split; auto. intros. now rewrite B2.
Qed.
Lemma param_ok_grows : forall h g g' nd name s, grows g g' -> param_ok h g nd name s -> param_ok h g' nd name s.
Proof.
  intros h g g' nd name s (G1 & G2 & G3) H HF. rewrite G2 in HF. specialize (H HF).
  destruct (st_type s); auto.
  - destruct H as (v & E1 & E2). exists v. split; auto. rewrite G1. auto.
  - destruct H as (j & d & v & E1 & E2 & E3 & E4). exists j, d, v. auto.
  - destruct H as (j & d & v & E1 & E2 & E3 & E4). exists j, d, v. auto.
Qed.
Lemma outputs_ok_grows : forall g g' nd outs r, grows g g' -> outputs_ok g nd outs r -> outputs_ok g' nd outs r.
Proof.
  intros g g' nd outs r (G1 & G2 & G3) H. unfold outputs_ok in *.
  destruct outs as [|o [|o2 outs]].
  - destruct H as (l & E1 & E2 & E3). exists l. sp; auto. intros p o x Ho Hx Hf. rewrite G2 in Hf.
    destruct (E3 p o x Ho Hx Hf) as [w [Q1 Q2]]. exists w. rewrite G1. auto.
  - intros Hf. rewrite G2 in Hf. destruct (H Hf) as [w [Q1 Q2]]. exists w. rewrite G1; auto.
  - destruct H as (l & E1 & E2 & E3). exists l. sp; auto. intros p o' x Ho Hx Hf. rewrite G2 in Hf.
    destruct (E3 p o' x Ho Hx Hf) as [w [Q1 Q2]]. exists w. rewrite G1. auto.
Qed.
Lemma node_ok_grows : forall h g g' k, grows g g' -> node_ok h g k -> node_ok h g' k.
Proof.
  intros h g g' k G (n & E & H1 & H2). exists n. split; auto. split.
  - intros. eapply param_ok_grows; eauto.
  - intros Hf He. destruct (H2 Hf He) as (args & w & w' & r & Q1 & Q2 & Q3 & Q4).
    exists args, w, w', r. sp; auto.
    + intros. apply G. auto.
    + eapply outputs_ok_grows; eauto.
Qed.

(** One [set] of an absent or fixed parameter. *)
Lemma set_grows : forall (g g' : gs) nd name v, wf g -> gs_set g nd name v false = (g', None) ->
  (look g nd name = None \/ is_fixed g nd name = true) ->
  wf g' /\ grows g g' /\
  (forall x vr, (x, vr) <> (nd, name) -> look g' x vr = look g x vr) /\
  (is_fixed g nd name = false -> exists w, store_value (gs_n g) v = Ok w /\ look g' nd name = Some w).
Proof.
  intros g g' nd name v Wf H HC. destruct (set_spec _ _ _ _ _ _ _ Wf H) as (W' & HN & _ & HO & HL & HF & _).
  assert (HX : forall x vr, (x, vr) <> (nd, name) -> look g' x vr = look g x vr).
  { intros x vr NE. rewrite HL. destruct (String.eqb x nd && String.eqb vr name) eqn:E; auto.
    apply eqb2 in E. destruct E; subst. congruence. }
  assert (HV : is_fixed g nd name = false -> exists w, store_value (gs_n g) v = Ok w /\ look g' nd name = Some w).
  { intros Hf. destruct (HO eq_refl) as (_ & _ & [Q|[w Q]]); [congruence|]. exists w. split; auto.
    rewrite HL, Hf, !String.eqb_refl. simpl. now rewrite Q. }
  split; auto. split; [|split; auto]. split; auto. split.
  - intros. rewrite HF. simpl. apply orb_false_r.
  - intros x vr u Hu. destruct (string_dec x nd) as [->|NE]; [|rewrite HX; auto; congruence].
    destruct (string_dec vr name) as [->|NE]; [|rewrite HX; auto; congruence].
    destruct HC as [HC|HC]; [congruence|]. rewrite HL, HC, andb_false_r. auto.
Qed.

(** Several outputs. *)
Lemma save_many : forall l (m m' : sm) nd outs, wf (sm_gs m) ->
  fold_res (fun m ov => sm_set m nd (fst ov) (snd ov)) m (combine outs l) = Ok m' ->
  length l = length outs -> NoDup outs ->
  (forall o, In o outs -> look (sm_gs m) nd o = None \/ is_fixed (sm_gs m) nd o = true) ->
  wf (sm_gs m') /\ grows (sm_gs m) (sm_gs m') /\
  (forall x vr, x <> nd \/ ~ In vr outs -> look (sm_gs m') x vr = look (sm_gs m) x vr) /\
  (forall p o x, nth_error outs p = Some o -> nth_error l p = Some x ->
     is_fixed (sm_gs m') nd o = false ->
     exists w, store_value (gs_n (sm_gs m')) x = Ok w /\ look (sm_gs m') nd o = Some w).
Proof.
  induction l as [|v l IH]; intros m m' nd outs Wf H HL ND HA; destruct outs as [|o outs]; try discriminate.
  - inversion H; subst. sp; auto using grows_refl. intros [|p] o x Q; discriminate.
  - simpl in H. destruct (sm_set m nd o v) as [m1|] eqn:E; [|discriminate].
    apply sm_set_frame in E. destruct E as (_ & _ & _ & E).
    destruct (set_grows _ _ _ _ _ Wf E) as (W1 & G1 & X1 & V1); [apply HA; now left|].
    assert (NI : ~ In o outs) by now inversion ND.
    destruct (IH m1 m' nd outs) as (W2 & G2 & X2 & V2); auto.
    { now inversion ND. }
    { intros o' Ho'. rewrite X1 by congruence. destruct G1 as (_ & G1 & _). rewrite G1. apply HA. now right. }
    split; auto. split; [eapply grows_trans; eauto|]. split.
    + intros x vr [HX|HX].
      * rewrite X2 by auto. apply X1. congruence.
      * simpl in HX. rewrite X2 by tauto. apply X1. intros Q. inversion Q; subst. tauto.
    + intros [|p] o' x Ho Hx Hf; simpl in *.
      * inversion Ho; inversion Hx; subst. destruct G2 as (G2a & G2b & G2c).
        destruct G1 as (G1a & G1b & G1c). destruct V1 as [w [Q1 Q2]]; [rewrite <- G1b, <- G2b; auto|].
        exists w. split; [rewrite G2a, G1a; auto|auto].
      * eauto.
Qed.

Lemma build_inputs_spec : forall (g : gs) nd args kw d, build_inputs g nd args kw = Ok d ->
  dkeys d = args /\
  forall k v, In (k, v) d -> (dget k kw = Some v \/ (dget k kw = None /\ look g nd k = Some v)).
Proof.
  induction args as [|a args IH]; simpl; intros kw d H.
  - inversion H; subst. split; auto. simpl; tauto.
  - destruct (match dget a kw with Some v => Ok v | None => gs_item g nd a end) as [v|] eqn:E; [|discriminate].
    destruct (build_inputs g nd args kw) as [d'|] eqn:EB; [|discriminate]. inversion H; subst.
    destruct (IH kw d' EB) as [I1 I2]. split; [simpl; congruence|].
    intros k u [Q|Q]; [|eauto]. inversion Q; subst. destruct (dget k kw); [left; congruence|].
    right. split; auto. now apply gs_item_look.
Qed.

(** Well-formed node objects: parameter names are distinct and the declared outputs are
    distinct computed parameters. *)
Definition good_node (n : node) : Prop :=
  NoDup (dkeys (nd_setters n)) /\ NoDup (nd_outs n) /\
  forall o, In o (nd_outs n) -> exists s, In (o, s) (nd_setters n) /\ st_type s = SCompute.

Definition owned (g : gs) (seen : dict nat) : Prop :=
  forall nd vr v, look g nd vr = Some v -> is_fixed g nd vr = true \/ In nd (dkeys seen).

Lemma value_spec : forall fuel h (m : sm) i m',
  (forall k n, nth_error h k = Some n -> good_node n) ->
  seen_ok h (sm_seen m) -> wf (sm_gs m) -> owned (sm_gs m) (sm_seen m) ->
  sample_helper func fuel h m i = Ok m' ->
  exists new, sm_seen m' = sm_seen m ++ new /\ seen_ok h (sm_seen m') /\
    wf (sm_gs m') /\ grows (sm_gs m) (sm_gs m') /\ owned (sm_gs m') (sm_seen m') /\
    (forall nd vr, In nd (dkeys (sm_seen m)) -> look (sm_gs m') nd vr = look (sm_gs m) nd vr) /\
    (forall k, In k (ids new) -> node_ok h (sm_gs m') k).
Proof.
  induction fuel as [|f IH]; intros h m i m' HG SO Wf OW H; [discriminate|]. cbn [sample_helper] in H.
  destruct (nth_error h i) as [n|] eqn:EN; [|discriminate].
  destruct (dget (nd_str n) (sm_seen m)) as [j|] eqn:ES.
  { destruct (j =? i) eqn:EJ; [|discriminate]. inversion H; subst. exists []. rewrite app_nil_r.
    sp; auto using grows_refl. simpl; tauto. }
  destruct (seen_ok_add _ _ _ _ SO EN ES) as [E0 SO0].
  assert (HGn := HG _ _ EN). destruct HGn as (NDs & NDo & HOut).
  set (str := nd_str n) in *.
  assert (NEW : ~ In str (dkeys (sm_seen m))) by now apply dget_None in ES.
  rewrite E0 in H.
  set (m1 := mkSM (sm_gs m) (sm_seen m ++ [(str, i)]) (sm_w m) (sm_tr m ++ [EEnter i])) in *.
  assert (L : forall ps (ma mb : sm) done new,
     (forall p, In p ps -> In p (nd_setters n)) -> NoDup (map fst ps) ->
     (forall x, In x (map fst ps) -> ~ In x done) ->
     sm_seen ma = (sm_seen m ++ [(str, i)]) ++ new -> seen_ok h (sm_seen ma) ->
     wf (sm_gs ma) -> owned (sm_gs ma) (sm_seen ma) ->
     (forall vr v, look (sm_gs ma) str vr = Some v -> is_fixed (sm_gs ma) str vr = true \/ In vr done) ->
     (forall k, In k (ids new) -> node_ok h (sm_gs ma) k) ->
     fold_res (sample_param (sample_helper func f h) h i n) ma ps = Ok mb ->
     exists new2, sm_seen mb = (sm_seen m ++ [(str, i)]) ++ new2 /\ seen_ok h (sm_seen mb) /\
       wf (sm_gs mb) /\ owned (sm_gs mb) (sm_seen mb) /\ grows (sm_gs ma) (sm_gs mb) /\
       (forall nd vr, In nd (dkeys (sm_seen m)) -> look (sm_gs mb) nd vr = look (sm_gs ma) nd vr) /\
       (forall vr v, look (sm_gs mb) str vr = Some v ->
          is_fixed (sm_gs mb) str vr = true \/ In vr done \/
          exists s, In (vr, s) ps /\ st_type s <> SCompute) /\
       (forall k, In k (ids new2) -> node_ok h (sm_gs mb) k) /\
       (forall name s, In (name, s) ps -> param_ok h (sm_gs mb) str name s)).
  { induction ps as [|[name s] ps IHp]; intros ma mb done new HP NDp HD ESa SOa Wa OWa OWN NOK HF; cbn [fold_res] in HF.
    - inversion HF; subst. exists new. sp; auto using grows_refl; try (simpl; tauto).
      intros vr v Hv. apply OWN in Hv. tauto.
    - destruct (sample_param (sample_helper func f h) h i n ma (name, s)) as [mc|] eqn:EP; [|discriminate].
      (* the dependency *)
      assert (R : exists md newd, (match st_dep s with Some j => if j =? i then Ok ma else sample_helper func f h ma j
                              | None => Ok ma end) = Ok md /\
         sm_seen md = sm_seen ma ++ newd /\ seen_ok h (sm_seen md) /\
         wf (sm_gs md) /\ grows (sm_gs ma) (sm_gs md) /\ owned (sm_gs md) (sm_seen md) /\
         (forall nd vr, In nd (dkeys (sm_seen ma)) -> look (sm_gs md) nd vr = look (sm_gs ma) nd vr) /\
         (forall k, In k (ids newd) -> node_ok h (sm_gs md) k)).
      { assert (TRIV : exists md newd, Ok ma = Ok md /\
         sm_seen md = sm_seen ma ++ newd /\ seen_ok h (sm_seen md) /\
         wf (sm_gs md) /\ grows (sm_gs ma) (sm_gs md) /\ owned (sm_gs md) (sm_seen md) /\
         (forall nd vr, In nd (dkeys (sm_seen ma)) -> look (sm_gs md) nd vr = look (sm_gs ma) nd vr) /\
         (forall k, In k (ids newd) -> node_ok h (sm_gs md) k)).
        { exists ma, []. rewrite app_nil_r. sp; auto using grows_refl. simpl; tauto. }
        unfold sample_param in EP. destruct (st_dep s) as [j|]; auto. destruct (j =? i); auto.
        destruct (sample_helper func f h ma j) as [md|] eqn:ER; [|discriminate].
        destruct (IH h ma j md HG SOa Wa OWa ER) as (newd & P). exists md, newd. split; auto. }
      destruct R as (md & newd & ER & D1 & D2 & D3 & D4 & D5 & D6 & D7).
      assert (Sa : forall nd, In nd (dkeys (sm_seen m)) -> In nd (dkeys (sm_seen ma))).
      { intros nd Hnd. rewrite ESa. unfold dkeys in *. rewrite !map_app, !in_app_iff. auto. }
      assert (Sstr : In str (dkeys (sm_seen ma))).
      { rewrite ESa. unfold dkeys. rewrite !map_app, !in_app_iff. left; right. now left. }
      assert (OWNd : forall vr v, look (sm_gs md) str vr = Some v -> is_fixed (sm_gs md) str vr = true \/ In vr done).
      { intros vr v Hv. rewrite D6 in Hv by auto. destruct D4 as (_ & D4 & _). rewrite D4. eauto. }
      assert (ABS : look (sm_gs md) str name = None \/ is_fixed (sm_gs md) str name = true).
      { destruct (look (sm_gs md) str name) as [v|] eqn:E; auto. right.
        destruct (OWNd _ _ E) as [Q|Q]; auto. exfalso. apply (HD name); auto. now left. }
      (* the assignment *)
      assert (S : sm_seen mc = sm_seen md /\ wf (sm_gs mc) /\ grows (sm_gs md) (sm_gs mc) /\
                  (forall x vr, (x, vr) <> (str, name) -> look (sm_gs mc) x vr = look (sm_gs md) x vr) /\
                  (st_type s = SCompute -> sm_gs mc = sm_gs md) /\
                  param_ok h (sm_gs mc) str name s).
      { unfold sample_param in EP. rewrite ER in EP.
        assert (SET : forall v, sm_set (sm_log md (EAssign i name)) str name v = Ok mc ->
            shape (gs_n (sm_gs md)) v ->
            sm_seen mc = sm_seen md /\ wf (sm_gs mc) /\ grows (sm_gs md) (sm_gs mc) /\
            (forall x vr, (x, vr) <> (str, name) -> look (sm_gs mc) x vr = look (sm_gs md) x vr) /\
            (is_fixed (sm_gs md) str name = false -> look (sm_gs mc) str name = Some v)).
        { intros v HS SH. apply sm_set_frame in HS. simpl in HS. destruct HS as (F1 & F2 & F3 & F4).
          destruct (set_grows _ _ _ _ _ D3 F4 ABS) as (G1 & G2 & G3 & G4). sp; auto.
          intros Hf. destruct (G4 Hf) as [w [Q1 Q2]]. rewrite store_value_idem in Q1 by auto. congruence. }
        destruct (st_type s) eqn:ET; try discriminate.
        - destruct (st_const s) as [v|] eqn:EC; [|discriminate].
          destruct (SET _ EP) as (F1 & F2 & F3 & F4 & F5).
          { unfold shape. destruct (gs_n (sm_gs md) =? 1) eqn:E1; [left; now apply Nat.eqb_eq|].
            right. eexists. split; eauto. apply repeat_length. }
          sp; auto. discriminate. intros Hf. rewrite ET. destruct F3 as (F3a & F3b & F3c).
          exists v. split; auto. rewrite F3a. unfold const_of. apply F5. rewrite <- F3b. auto.
        - destruct (st_dep s) as [j|] eqn:ED; [|discriminate]. destruct (nth_error h j) as [d|] eqn:EJ; [|discriminate].
          destruct (gs_item _ _ _) as [v|] eqn:EI; [|discriminate]. apply gs_item_look in EI.
          destruct (SET _ EP) as (F1 & F2 & F3 & F4 & F5).
          { apply (wf_var _ D3 _ _ _ EI). }
          sp; auto. discriminate. intros Hf. rewrite ET. destruct F3 as (F3a & F3b & F3c).
          exists j, d, v. sp; auto. apply F5. rewrite <- F3b. auto.
        - destruct (st_dep s) as [j|] eqn:ED; [|discriminate]. destruct (nth_error h j) as [d|] eqn:EJ; [|discriminate].
          destruct (gs_item _ _ _) as [v|] eqn:EI; [|discriminate]. apply gs_item_look in EI.
          destruct (SET _ EP) as (F1 & F2 & F3 & F4 & F5).
          { apply (wf_var _ D3 _ _ _ EI). }
          sp; auto. discriminate. intros Hf. rewrite ET. destruct F3 as (F3a & F3b & F3c).
          exists j, d, v. sp; auto. apply F5. rewrite <- F3b. auto.
        - inversion EP; subst. sp; auto using grows_refl. unfold param_ok. now rewrite ET. }
      destruct S as (S1 & S2 & S3 & S4 & S5 & S6).
      set (done' := match st_type s with SCompute => done | _ => name :: done end).
      destruct (IHp mc mb done' (new ++ newd)) as (new2 & B1 & B2 & B3 & B4 & B5 & B6 & B7 & B8 & B9); auto.
      + intros p Hp. apply HP. now right.
      + now inversion NDp.
      + intros x Hx Hd. assert (Hd2 : x = name \/ In x done).
        { unfold done' in Hd. destruct (st_type s); simpl in Hd; intuition. }
        destruct Hd2 as [->|Hd2].
        * inversion NDp; subst. auto.
        * apply (HD x); auto. now right.
      + rewrite S1, D1, ESa. now rewrite app_assoc.
      + now rewrite S1.
      + intros nd vr v Hv. rewrite S1. destruct (string_dec nd str) as [->|NE].
        * right. rewrite D1. unfold dkeys in *. rewrite map_app, in_app_iff. auto.
        * rewrite S4 in Hv by congruence. destruct S3 as (_ & S3 & _). rewrite S3. eapply D5; eauto.
      + intros vr v Hv. destruct (string_dec vr name) as [->|NE].
        * unfold done'. destruct (st_type s) eqn:ET; try (right; now left).
          rewrite (S5 eq_refl) in *. destruct (OWNd _ _ Hv); auto.
        * rewrite S4 in Hv by congruence. destruct S3 as (_ & S3 & _). rewrite S3.
          destruct (OWNd _ _ Hv) as [Q|Q]; auto. right. unfold done'. destruct (st_type s); auto; now right.
      + intros k Hk. rewrite ids_app, in_app_iff in Hk. destruct Hk as [Hk|Hk].
        * eapply node_ok_grows; [eapply grows_trans; [exact D4|exact S3]|]. auto.
        * eapply node_ok_grows; eauto.
      + assert (GR : grows (sm_gs ma) (sm_gs mb)).
        { eapply grows_trans; [exact D4|]. eapply grows_trans; [exact S3|exact B5]. }
        exists new2. sp; auto.
        * intros nd vr Hnd. rewrite B6 by auto.
          assert (nd <> str) by (intros ->; auto).
          rewrite S4 by congruence. apply D6. auto.
        * intros vr v Hv. destruct (B7 _ _ Hv) as [Q|[Q|(s' & Q1 & Q2)]]; auto.
          -- unfold done' in Q. destruct (st_type s) eqn:ET; auto; destruct Q as [<-|Q]; auto;
               right; right; exists s; (split; [now left|congruence]).
          -- right; right. exists s'. split; auto. now right.
        * intros name' s' [Q|Q]; auto. inversion Q; subst. eapply param_ok_grows; [exact B5|exact S6]. }
  destruct (fold_res (sample_param (sample_helper func f h) h i n) m1 (nd_setters n)) as [m2|] eqn:EF; [|discriminate].
  destruct (L (nd_setters n) m1 m2 [] []) as (new2 & B1 & B2 & B3 & B4 & B5 & B6 & B7 & B8 & B9); auto.
  { unfold m1; simpl. now rewrite app_nil_r. }
  { unfold m1; simpl. intros nd vr v Hv. destruct (OW _ _ _ Hv); auto. right.
    unfold dkeys in *. rewrite map_app, in_app_iff. auto. }
  { unfold m1; simpl. intros vr v Hv. destruct (OW _ _ _ Hv); auto. }
  { simpl; tauto. }
  unfold m1 in B5, B6; cbn [sm_gs] in B5, B6.
  (* the computed outputs are still absent or fixed *)
  assert (OA : forall o, In o (nd_outs n) -> look (sm_gs m2) str o = None \/ is_fixed (sm_gs m2) str o = true).
  { intros o Ho. destruct (look (sm_gs m2) str o) as [v|] eqn:E; auto. right.
    destruct (B7 _ _ E) as [Q|[[]|(s & Q1 & Q2)]]; auto. exfalso.
    destruct (HOut _ Ho) as (s' & H1 & H2). apply Q2.
    assert (s = s'); [|congruence]. assert (G1 := In_dget _ _ _ _ NDs Q1). assert (G2 := In_dget _ _ _ _ NDs H1). congruence. }
  assert (FIN : exists m3 : sm, sm_gs m' = sm_gs m3 /\ sm_seen m' = sm_seen m2 /\ wf (sm_gs m3) /\
      grows (sm_gs m2) (sm_gs m3) /\
      (forall x vr, x <> str -> look (sm_gs m3) x vr = look (sm_gs m2) x vr) /\
      compute_ok h (sm_gs m3) i n).
  { destruct (existsb (fun ps => is_compute (snd ps)) (nd_setters n)) eqn:EX.
    2:{ inversion H; subst. exists m2. sp; auto using grows_refl. intros _ Q. congruence. }
    destruct (compute func (sm_log m2 (ECompute i)) i n []) as [m3|] eqn:EC; [|discriminate].
    inversion H; subst. exists m3. split; auto.
    assert (FR := compute_frame _ _ _ _ _ _ EC). simpl in FR. split; [tauto|].
    unfold compute in EC. destruct (nd_fn n) eqn:EFN; simpl in EC.
    2:{ inversion EC; subst. simpl. sp; auto using grows_refl. intros Q. congruence. }
    destruct (nd_func n) as [fn|]; [|discriminate].
    destruct (build_inputs _ _ _ _) as [args|] eqn:EB; [|discriminate].
    destruct (build_inputs_spec _ _ _ _ _ EB) as [BI1 BI2].
    destruct (func (sm_w m2) i args) as [w [r|]] eqn:EW; [|discriminate].
    rewrite save_alt in EC.
    assert (MANY : forall outs l, nd_outs n = outs -> r = Arr l ->
        (if negb (length l =? length outs) then Err ValueError
         else fold_res (fun m ov => sm_set m (nd_str n) (fst ov) (snd ov))
               (mkSM (sm_gs m2) (sm_seen m2) w (sm_tr m2 ++ [ECompute i])) (combine outs l)) = Ok m3 ->
        wf (sm_gs m3) /\ grows (sm_gs m2) (sm_gs m3) /\
        (forall x vr, x <> str -> look (sm_gs m3) x vr = look (sm_gs m2) x vr) /\
        length l = length outs /\
        (forall p o x, nth_error outs p = Some o -> nth_error l p = Some x ->
             is_fixed (sm_gs m3) str o = false ->
             exists w, store_value (gs_n (sm_gs m3)) x = Ok w /\ look (sm_gs m3) str o = Some w)).
    { intros outs l EO -> HF. destruct (negb (length l =? length outs)) eqn:EL; [discriminate|].
      apply negb_false_iff, Nat.eqb_eq in EL.
      destruct (save_many l (mkSM (sm_gs m2) (sm_seen m2) w (sm_tr m2 ++ [ECompute i])) _ _ outs B3 HF EL) as (Q1 & Q2 & Q3 & Q4); subst outs; auto.
      simpl in *. sp; auto. }
    assert (ARGS : forall k v, In (k, v) args -> look (sm_gs m2) str k = Some v).
    { intros k v Hk. destruct (BI2 k v Hk) as [Q|[_ Q]]; [discriminate|exact Q]. }
    destruct (nd_outs n) as [|o [|o2 outs]] eqn:EO.
    - destruct r as [|l]; [discriminate|]. destruct (MANY [] l) as (Q1 & Q2 & Q3 & Q4 & Q5); auto.
      sp; auto. intros _ _. exists args, (sm_w m2), w, (Arr l). sp; auto.
      + intros k v Hk. apply Q2. auto.
      + rewrite EO. exists l. auto.
    - apply sm_set_frame in EC. destruct EC as (_ & _ & _ & EC). simpl in EC.
      destruct (set_grows _ _ _ _ _ B3 EC) as (Q1 & Q2 & Q3 & Q4).
      { apply OA. now left. }
      sp; auto.
      + intros x vr NE. apply Q3. fold str. congruence.
      + intros _ _. exists args, (sm_w m2), w, r. sp; auto.
        * intros k v Hk. apply Q2. auto.
        * rewrite EO. simpl. destruct Q2 as (Q2a & Q2b & Q2c). intros Hf.
          destruct Q4 as [u [R1 R2]]; [rewrite <- Q2b; auto|]. exists u. rewrite Q2a. auto.
    - destruct r as [|l]; [discriminate|]. destruct (MANY (o :: o2 :: outs) l) as (Q1 & Q2 & Q3 & Q4 & Q5); auto.
      sp; auto. intros _ _. exists args, (sm_w m2), w, (Arr l). sp; auto.
      + intros k v Hk. apply Q2. auto.
      + rewrite EO. exists l. auto. }
  destruct FIN as (m3 & F1 & F2 & F3 & F4 & F5 & F6). rewrite F1, F2.
  exists ((str, i) :: new2). rewrite B1, <- app_assoc. sp; auto.
  - rewrite B1, <- app_assoc in B2. exact B2.
  - eapply grows_trans; [exact B5|exact F4].
  - intros nd vr v Hv. destruct (string_dec nd str) as [->|NE].
    + right. unfold dkeys. rewrite map_app, in_app_iff. right. now left.
    + rewrite F5 in Hv by auto. destruct F4 as (_ & F4 & _). rewrite F4.
      destruct (B4 _ _ _ Hv) as [Q|Q]; auto. right. rewrite B1, <- app_assoc in Q. exact Q.
  - intros nd vr Hnd. assert (nd <> str) by (intros ->; auto). rewrite F5 by auto. apply B6. auto.
  - intros k [<-|Hk].
    + exists n. split; auto. split; auto. intros name s Hs. eapply param_ok_grows; [exact F4|]; auto.
    + eapply node_ok_grows; [exact F4|]; auto.
Qed.

End P.
