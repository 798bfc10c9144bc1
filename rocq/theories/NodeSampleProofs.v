(** Lemmas about sampling ([NodeGraphModel.sample_helper]). *)
From Coq Require Import String Ascii List Bool Arith ZArith Lia Relations.
From Verif Require Import Base BaseFacts Numerals GraphStateModel GraphStateProofs GraphStateProofs2
  NodeGraphModel NodeGraphProofs.
Import ListNotations.
Open Scope string_scope.
Open Scope list_scope.
Open Scope nat_scope.

Section P.
Context {A W : Type}.
Variable func : W -> nat -> dict (value A) -> W * result (value A).
Notation node := (node A).
Notation nheap := (nheap A).
Notation setter := (setter A).
Notation sm := (sm A W).
Notation value := (value A).
Notation gs := (gs A).

Definition ids (seen : dict nat) : list nat := map snd seen.
Definition seen_ok (h : nheap) (seen : dict nat) : Prop :=
  NoDup (dkeys seen) /\
  forall s k, In (s, k) seen -> exists n, nth_error h k = Some n /\ nd_str n = s.

Lemma ids_fresh : forall h seen i n, seen_ok h seen -> nth_error h i = Some n ->
  dget (nd_str n) seen = None -> ~ In i (ids seen).
Proof.
  intros h seen i n [ND H] HN HD HI. unfold ids in HI. apply in_map_iff in HI.
  destruct HI as [[s k] [E HI]]. simpl in E. subst k. destruct (H _ _ HI) as [n' [E1 E2]].
  assert (n' = n) by congruence. subst. apply dget_None in HD. apply HD.
  unfold dkeys. apply in_map_iff. exists (nd_str n, i). auto.
Qed.

Lemma seen_ok_add : forall h seen i n, seen_ok h seen -> nth_error h i = Some n ->
  dget (nd_str n) seen = None -> dset (nd_str n) i seen = seen ++ [(nd_str n, i)] /\
  seen_ok h (seen ++ [(nd_str n, i)]).
Proof.
  intros h seen i n [ND H] HN HD. split; [apply dset_new; now apply dget_None in HD|]. split.
  - unfold dkeys. rewrite map_app. simpl. apply NoDup_app_single; auto. now apply dget_None in HD.
  - intros s k HI. apply in_app_iff in HI. destruct HI as [HI|[HI|[]]]; auto. inversion HI; subst. eauto.
Qed.

Definition ev_node (e : event) : nat :=
  match e with EEnter i | EAssign i _ | ECompute i | ELeave i => i end.

Lemma sm_set_frame : forall (m : sm) nd name v m', sm_set m nd name v = Ok m' ->
  sm_seen m' = sm_seen m /\ sm_tr m' = sm_tr m /\ sm_w m' = sm_w m /\
  gs_set (sm_gs m) nd name v false = (sm_gs m', None).
Proof.
  intros m nd name v m' H. unfold sm_set in H.
  destruct (gs_set (sm_gs m) nd name v false) as [g [e|]]; inversion H; subst; auto.
Qed.

Lemma save_alt : forall (m : sm) nd outs r, save_results m nd outs r =
  match outs with
  | [o] => sm_set m nd o r
  | _ =>
      match r with
      | Atom _ => Err TypeError
      | Arr l =>
          if negb (length l =? length outs) then Err ValueError
          else fold_res (fun m ov => sm_set m nd (fst ov) (snd ov)) m (combine outs l)
      end
  end.
Proof.
  assert (F : forall l (m : sm) nd,
    match gs_set_all (sm_gs m) (map (fun ov => (nd, fst ov, snd ov)) l) false with
    | (g, None) => Ok (mkSM g (sm_seen m) (sm_w m) (sm_tr m)) | (_, Some e) => Err e end =
    fold_res (fun m ov => sm_set m nd (fst ov) (snd ov)) m l).
  { induction l as [|[o v] l IH]; intros m nd; simpl; [now destruct m|].
    unfold sm_set at 1. destruct (gs_set (sm_gs m) nd o v false) as [g [e|]]; auto.
    rewrite <- IH. reflexivity. }
  intros m nd outs r. unfold save_results, save_results_gs.
  destruct outs as [|o [|o2 outs]].
  - destruct r as [|l]; [auto|]. destruct (negb _); [auto|apply F].
  - reflexivity.
  - destruct r as [|l]; [auto|]. destruct (negb _); [auto|apply F].
Qed.
Lemma save_frame : forall (m : sm) nd outs r m', save_results m nd outs r = Ok m' ->
  sm_seen m' = sm_seen m /\ sm_tr m' = sm_tr m.
Proof.
  assert (F : forall l (m m' : sm) nd, fold_res (fun m ov => sm_set m nd (fst ov) (snd ov)) m l = Ok m' ->
    sm_seen m' = sm_seen m /\ sm_tr m' = sm_tr m).
  { induction l as [|[o v] l IH]; simpl; intros m m' nd H; [inversion H; auto|].
    destruct (sm_set m nd o v) as [m1|] eqn:E; [|discriminate].
    apply sm_set_frame in E. apply IH in H. intuition congruence. }
  intros m nd outs r m' H. rewrite save_alt in H.
  destruct outs as [|o [|o2 outs]].
  - destruct r as [|l]; [discriminate|]. destruct (negb _); [discriminate|]. eauto.
  - apply sm_set_frame in H. tauto.
  - destruct r as [|l]; [discriminate|]. destruct (negb _); [discriminate|]. eauto.
Qed.

Lemma compute_frame : forall (m : sm) i n kw m', compute func m i n kw = Ok m' ->
  sm_seen m' = sm_seen m /\ sm_tr m' = sm_tr m.
Proof.
  intros m i n kw m' H. unfold compute in H. destruct (negb (nd_fn n)); [inversion H; auto|].
  destruct (nd_func n); [|discriminate].
  destruct (build_inputs _ _ _ _) as [args|]; [|discriminate].
  destruct (func (sm_w m) i args) as [w [r|]]; [|discriminate].
  apply save_frame in H. simpl in H. auto.
Qed.

Lemma NoDup_app_l : forall B (a b : list B), NoDup (a ++ b) -> NoDup a.
Proof.
  induction a; simpl; intros b H; [constructor|]. inversion H; subst. constructor; eauto.
  rewrite in_app_iff in H2. tauto.
Qed.

(** ** How often things happen *)
Definition tr_ok (m : sm) : Prop :=
  NoDup (sm_tr m) /\ forall e, In e (sm_tr m) -> In (ev_node e) (ids (sm_seen m)).

(** One call extends the seen nodes and the trace; everything it does concerns newly seen nodes;
    seen nodes are closed under dependencies up to those seen before. *)
Definition t_post (h : nheap) (m m' : sm) : Prop :=
  exists new t, sm_seen m' = sm_seen m ++ new /\ sm_tr m' = sm_tr m ++ t /\
    seen_ok h (sm_seen m') /\ tr_ok m' /\
    (forall e, In e t -> In (ev_node e) (ids new)) /\
    (forall k, In k (ids new) -> forall j, In j (ndeps h k) -> In j (ids (sm_seen m'))).

Lemma t_refl : forall h m, seen_ok h (sm_seen m) -> tr_ok m -> t_post h m m.
Proof.
  intros h m H1 H2. exists [], []. rewrite !app_nil_r. sp; auto; simpl; tauto.
Qed.

Lemma ids_app : forall a b, ids (a ++ b) = ids a ++ ids b.
Proof. intros. apply map_app. Qed.

Lemma t_trans : forall h m1 m2 m3, t_post h m1 m2 -> t_post h m2 m3 -> t_post h m1 m3.
Proof.
  intros h m1 m2 m3 (n1 & t1 & A1 & A2 & A3 & A4 & A5 & A6) (n2 & t2 & B1 & B2 & B3 & B4 & B5 & B6).
  exists (n1 ++ n2), (t1 ++ t2). sp; auto.
  - rewrite B1, A1. now rewrite app_assoc.
  - rewrite B2, A2. now rewrite app_assoc.
  - intros e He. rewrite ids_app, in_app_iff. apply in_app_iff in He. destruct He; auto.
  - intros k Hk j Hj. rewrite ids_app, in_app_iff in Hk. destruct Hk as [Hk|Hk].
    + rewrite B1, ids_app, in_app_iff. left. eauto.
    + eauto.
Qed.

Lemma trace_spec : forall fuel h (m : sm) i m',
  (forall k n, nth_error h k = Some n -> NoDup (dkeys (nd_setters n))) ->
  seen_ok h (sm_seen m) -> tr_ok m -> sample_helper func fuel h m i = Ok m' ->
  t_post h m m' /\ In i (ids (sm_seen m')).
Proof.
  induction fuel as [|f IH]; intros h m i m' HW SO TO H; [discriminate|]. cbn [sample_helper] in H.
  destruct (nth_error h i) as [n|] eqn:EN; [|discriminate].
  destruct (dget (nd_str n) (sm_seen m)) as [j|] eqn:ES.
  { destruct (j =? i) eqn:EJ; [|discriminate]. inversion H; subst. apply Nat.eqb_eq in EJ; subst.
    split; [now apply t_refl|]. apply dget_In in ES. apply in_map_iff. exists (nd_str n, i). auto. }
  assert (NI := ids_fresh _ _ _ _ SO EN ES).
  destruct (seen_ok_add _ _ _ _ SO EN ES) as [E0 SO0].
  rewrite E0 in H. set (m1 := mkSM (sm_gs m) (sm_seen m ++ [(nd_str n, i)]) (sm_w m) (sm_tr m ++ [EEnter i])) in *.
  assert (TO1 : tr_ok m1).
  { destruct TO as [T1 T2]. split; simpl.
    - apply NoDup_app_single; auto. intros HI. apply T2 in HI. simpl in HI. auto.
    - intros e He. rewrite ids_app, in_app_iff. apply in_app_iff in He. destruct He as [He|[<-|[]]].
      + left; auto.
      + right. now left. }
  (* the loop: the newly seen nodes after [i] and the events *)
  assert (L : forall ps (ma mb : sm) done,
     (forall p, In p ps -> In p (nd_setters n)) -> NoDup (map fst ps) ->
     (forall x, In x (map fst ps) -> ~ In x done) ->
     seen_ok h (sm_seen ma) -> tr_ok ma -> In i (ids (sm_seen ma)) ->
     (forall x, In (EAssign i x) (sm_tr ma) -> In x done) ->
     ~ In (ECompute i) (sm_tr ma) -> ~ In (ELeave i) (sm_tr ma) ->
     fold_res (sample_param (sample_helper func f h) h i n) ma ps = Ok mb ->
     exists new t, sm_seen mb = sm_seen ma ++ new /\ sm_tr mb = sm_tr ma ++ t /\
       seen_ok h (sm_seen mb) /\ tr_ok mb /\
       (forall e, In e t -> In (ev_node e) (i :: ids new)) /\
       (forall k, In k (ids new) -> forall j, In j (ndeps h k) -> In j (ids (sm_seen mb))) /\
       ~ In (ECompute i) (sm_tr mb) /\ ~ In (ELeave i) (sm_tr mb) /\
       (forall j, In j (sdeps i (map snd ps)) -> In j (ids (sm_seen mb)))).
  { induction ps as [|[name s] ps IHp]; intros ma mb done HP NDp HD SOa TOa Ia HA HC HL HF; cbn [fold_res] in HF.
    - inversion HF; subst. exists [], []. rewrite !app_nil_r. sp; auto; simpl; tauto.
    - destruct (sample_param (sample_helper func f h) h i n ma (name, s)) as [mc|] eqn:EP; [|discriminate].
      (* the recursive call *)
      assert (R : exists md, (match st_dep s with Some j => if j =? i then Ok ma else sample_helper func f h ma j
                              | None => Ok ma end) = Ok md /\ t_post h ma md /\
                 (forall j, st_dep s = Some j -> j <> i -> In j (ids (sm_seen md)))).
      { unfold sample_param in EP. destruct (st_dep s) as [j|].
        - destruct (j =? i) eqn:EJ.
          + exists ma. split; auto. split; [now apply t_refl|]. intros j' E NE. inversion E; subst.
            apply Nat.eqb_eq in EJ. congruence.
          + destruct (sample_helper func f h ma j) as [md|] eqn:ER; [|discriminate].
            destruct (IH h ma j md HW SOa TOa ER) as [P1 P2].
            exists md. split; auto. split; auto. intros j' E NE. inversion E; subst. auto.
        - exists ma. split; auto. split; [now apply t_refl|]. discriminate. }
      destruct R as (md & ER & (newd & td & D1 & D2 & D3 & D4 & D5 & D6) & HJ).
      assert (OLD : forall e, In e td -> ev_node e <> i).
      { intros e He E. apply D5 in He. rewrite E in He. destruct D3 as [D3a D3b].
        assert (NDI : NoDup (ids (sm_seen md))).
        { clear - D3a D3b. unfold ids, dkeys in *. induction (sm_seen md) as [|[s0 k0] l IHl]; simpl in *; [constructor|].
          inversion D3a; subst. constructor; [|apply IHl; auto]. intros HI.
          apply in_map_iff in HI. destruct HI as [[s1 k1] [E1 HI]]. simpl in E1. subst k1.
          destruct (D3b s0 k0) as [n0 [Q1 Q2]]; auto. destruct (D3b s1 k0) as [n1 [Q3 Q4]]; auto.
          assert (n0 = n1) by congruence. subst. apply H1. apply in_map_iff. exists (nd_str n1, k0). auto. }
        rewrite D1, ids_app in NDI. clear - NDI He Ia.
        induction (ids (sm_seen ma)) as [|x l IHl]; simpl in *; [tauto|]. inversion NDI; subst.
        destruct Ia as [->|Ia]; auto. apply H1. apply in_app_iff; auto. }
      (* the assignment: [mc] has at most one more event *)
      assert (S : sm_seen mc = sm_seen md /\ (sm_tr mc = sm_tr md \/ sm_tr mc = sm_tr md ++ [EAssign i name])).
      { unfold sample_param in EP. rewrite ER in EP. destruct (st_type s); try discriminate.
        - destruct (st_const s); [|discriminate]. apply sm_set_frame in EP. simpl in EP. intuition.
        - destruct (st_dep s) as [j|]; [|discriminate]. destruct (nth_error h j); [|discriminate].
          destruct (gs_item _ _ _); [|discriminate]. apply sm_set_frame in EP. simpl in EP. intuition.
        - destruct (st_dep s) as [j|]; [|discriminate]. destruct (nth_error h j); [|discriminate].
          destruct (gs_item _ _ _); [|discriminate]. apply sm_set_frame in EP. simpl in EP. intuition.
        - inversion EP; subst. auto. }
      destruct S as [S1 S2].
      assert (Hname : ~ In name done) by (apply HD; now left).
      assert (Imd : In i (ids (sm_seen md))) by (rewrite D1, ids_app, in_app_iff; auto).
      assert (NA : ~ In (EAssign i name) (sm_tr md)).
      { rewrite D2, in_app_iff. intros [Q|Q]; [apply HA in Q; auto|]. apply OLD in Q. simpl in Q. auto. }
      assert (TOc : tr_ok mc).
      { destruct D4 as [T1 T2]. split.
        - destruct S2 as [->| ->]; auto. apply NoDup_app_single; auto.
        - intros e He. rewrite S1. destruct S2 as [S2|S2]; rewrite S2 in He; auto.
          apply in_app_iff in He. destruct He as [He|[<-|[]]]; auto. }
      destruct (IHp mc mb (name :: done)) as (newb & tb & B1 & B2 & B3 & B4 & B5 & B6 & B7 & B8 & B9); auto.
      + intros p Hp. apply HP. now right.
      + now inversion NDp.
      + intros x Hx [<-|Hx2].
        * inversion NDp; subst. auto.
        * apply (HD x); auto. now right.
      + now rewrite S1.
      + now rewrite S1.
      + intros x Hx. assert (Hx2 : In (EAssign i x) (sm_tr md) \/ x = name).
        { destruct S2 as [S2|S2]; rewrite S2 in Hx; auto. apply in_app_iff in Hx.
          destruct Hx as [Hx|[Hx|[]]]; auto. inversion Hx; auto. }
        destruct Hx2 as [Hx2| ->]; [|now left]. right. apply HA. rewrite D2, in_app_iff in Hx2.
        destruct Hx2 as [Q|Q]; auto. apply OLD in Q. simpl in Q. congruence.
      + intros Hx. assert (Hx2 : In (ECompute i) (sm_tr md)).
        { destruct S2 as [S2|S2]; rewrite S2 in Hx; auto. apply in_app_iff in Hx.
          destruct Hx as [Hx|[Hx|[]]]; auto. discriminate. }
        rewrite D2, in_app_iff in Hx2. destruct Hx2 as [Q|Q]; auto. apply OLD in Q. simpl in Q. congruence.
      + intros Hx. assert (Hx2 : In (ELeave i) (sm_tr md)).
        { destruct S2 as [S2|S2]; rewrite S2 in Hx; auto. apply in_app_iff in Hx.
          destruct Hx as [Hx|[Hx|[]]]; auto. discriminate. }
        rewrite D2, in_app_iff in Hx2. destruct Hx2 as [Q|Q]; auto. apply OLD in Q. simpl in Q. congruence.
      + rewrite S1, D1 in B1.
        assert (TT : exists ta, sm_tr mc = sm_tr ma ++ td ++ ta /\ forall e, In e ta -> ev_node e = i).
        { destruct S2 as [S2|S2]; rewrite S2, D2.
          - exists []. rewrite app_nil_r. split; auto. simpl; tauto.
          - exists [EAssign i name]. rewrite app_assoc. split; auto. intros e [<-|[]]; auto. }
        destruct TT as [ta [TT1 TT2]].
        exists (newd ++ newb), (td ++ ta ++ tb). sp; auto.
        * rewrite B1. now rewrite app_assoc.
        * rewrite B2, TT1. now rewrite <- !app_assoc.
        * intros e He. rewrite ids_app. apply in_app_iff in He. destruct He as [He|He].
          { right. rewrite in_app_iff. left; auto. }
          apply in_app_iff in He. destruct He as [He|He]; [left; symmetry; auto|].
          apply B5 in He. destruct He as [He|He]; [now left|]. right. rewrite in_app_iff. auto.
        * intros k Hk j Hj. rewrite ids_app, in_app_iff in Hk. destruct Hk as [Hk|Hk]; [|eauto].
          rewrite B1, ids_app, in_app_iff. left. rewrite <- D1. eauto.
        * intros j Hj. unfold sdeps in Hj. simpl in Hj. apply in_app_iff in Hj. destruct Hj as [Hj|Hj]; auto.
          destruct (st_dep s) as [j'|] eqn:ED; [|destruct Hj]. destruct (j' =? i) eqn:EJ; [destruct Hj|].
          destruct Hj as [<-|[]]. apply Nat.eqb_neq in EJ.
          rewrite B1, ids_app, in_app_iff. left. rewrite <- D1. apply HJ; auto. }
  destruct (fold_res (sample_param (sample_helper func f h) h i n) m1 (nd_setters n)) as [m2|] eqn:EF; [|discriminate].
  destruct (L (nd_setters n) m1 m2 []) as (new & t & B1 & B2 & B3 & B4 & B5 & B6 & B7 & B8 & B9); auto.
  { apply (HW _ _ EN). }
  { unfold m1; simpl. rewrite ids_app, in_app_iff. right. now left. }
  { unfold m1; simpl. intros x Hx. apply in_app_iff in Hx. destruct Hx as [Hx|[Hx|[]]]; [|discriminate].
    apply TO in Hx. simpl in Hx. auto. }
  { unfold m1; simpl. intros Hx. apply in_app_iff in Hx. destruct Hx as [Hx|[Hx|[]]]; [|discriminate].
    apply TO in Hx. simpl in Hx. auto. }
  { unfold m1; simpl. intros Hx. apply in_app_iff in Hx. destruct Hx as [Hx|[Hx|[]]]; [|discriminate].
    apply TO in Hx. simpl in Hx. auto. }
  unfold m1 in B1, B2; cbn [sm_seen sm_tr] in B1, B2.
  (* the compute step and leaving the node *)
  assert (E3 : exists tc, sm_seen m' = sm_seen m2 /\ sm_tr m' = sm_tr m2 ++ tc ++ [ELeave i] /\
               (tc = [] \/ tc = [ECompute i])).
  { destruct (existsb _ (nd_setters n)).
    - destruct (compute func (sm_log m2 (ECompute i)) i n []) as [m3|] eqn:EC; [|discriminate].
      apply compute_frame in EC. simpl in EC. inversion H; subst. simpl. exists [ECompute i].
      destruct EC as [-> ->]. rewrite <- app_assoc. auto.
    - inversion H; subst. exists []. auto. }
  destruct E3 as (tc & F1 & F2 & F3).
  assert (Ii : In i (ids (sm_seen m2))).
  { rewrite B1, !ids_app, !in_app_iff. left; right; now left. }
  split.
  - exists ((nd_str n, i) :: new), (EEnter i :: t ++ tc ++ [ELeave i]). sp.
    + rewrite F1, B1. now rewrite <- app_assoc.
    + rewrite F2, B2. now rewrite <- !app_assoc.
    + now rewrite F1.
    + destruct B4 as [T1 T2]. split.
      * rewrite F2. destruct F3 as [-> | ->]; simpl.
        -- apply NoDup_app_single; auto.
        -- change [ECompute i; ELeave i] with ([ECompute i] ++ [ELeave i]). rewrite app_assoc.
           apply NoDup_app_single; [apply NoDup_app_single; auto|].
           rewrite in_app_iff. intros [Q|[Q|[]]]; auto. discriminate.
      * intros e He. rewrite F1. rewrite F2 in He. apply in_app_iff in He. destruct He as [He|He]; auto.
        assert (ev_node e = i).
        { destruct F3 as [-> | ->]; simpl in He; intuition; subst; auto. }
        now rewrite H0.
    + intros e [<-|He]; [now left|]. apply in_app_iff in He. destruct He as [He|He]; [apply B5; auto|].
      left. destruct F3 as [-> | ->]; simpl in He; intuition; subst; auto.
    + intros k [<-|Hk] j Hj; [|rewrite F1; eauto]. rewrite F1. simpl in Hj.
      apply B9. unfold ndeps in Hj. now rewrite EN in Hj.
  - now rewrite F1.
Qed.

End P.
