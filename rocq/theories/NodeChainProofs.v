(** The calls of the functions of the nodes during a run, with the worlds before and after, and the values involved in the final state
    (copied from [value_spec] of NodeSampleProofs2, with the calls in the place of the nodes). *)
From Coq Require Import String Ascii List Bool Arith ZArith Lia Relations.
From Verif Require Import Base BaseFacts Numerals GraphStateModel GraphStateProofs GraphStateProofs2
  NodeGraphModel NodeGraphProofs NodeSampleProofs NodeSampleProofs2.
Import ListNotations.
Open Scope string_scope.
Open Scope list_scope.
Open Scope nat_scope.

(** One call of the function of a node. *)
Record call (A W : Type) := mkCall { c_node : nat; c_before : W; c_args : dict (value A); c_after : W; c_result : value A }.
Arguments mkCall {A W}. Arguments c_node {A W}. Arguments c_before {A W}. Arguments c_args {A W}. Arguments c_after {A W}. Arguments c_result {A W}.
(** Every call starts where the one before it ended. *)
Fixpoint threaded {A W} (w : W) (calls : list (call A W)) (w' : W) : Prop :=
  match calls with
  | [] => w' = w
  | c :: cs => c_before c = w /\ threaded (c_after c) cs w'
  end.
(** The function nodes computed in a trace, in order. *)
Definition computed {A} (h : nheap A) (tr : list event) : list nat :=
  flat_map (fun e => match e with
                     | ECompute k => match nth_error h k with Some n => if nd_fn n then [k] else [] | None => [] end
                     | _ => []
                     end) tr.
Lemma threaded_app : forall A W (a b : list (call A W)) w w1 w2, threaded w a w1 -> threaded w1 b w2 -> threaded w (a ++ b) w2.
Proof.
  induction a as [|c a IH]; simpl; intros b w w1 w2 H1 H2; [now subst|]. destruct H1 as [H1 H3]. split; auto. eapply IH; eauto.
Qed.

Section P.
Context {A W : Type}.
Variable func : W -> nat -> dict (value A) -> W * result (value A).
Notation node := (node A).
Notation nheap := (nheap A).
Notation setter := (setter A).
Notation sm := (sm A W).
Notation value := (value A).
Notation gs := (gs A).
Notation call := (call A W).

Definition call_ok (h : nheap) (g : gs) (c : call) : Prop :=
  exists n, nth_error h (c_node c) = Some n /\ nd_fn n = true /\ existsb (fun ps => is_compute (snd ps)) (nd_setters n) = true /\
    func (c_before c) (c_node c) (c_args c) = (c_after c, Ok (c_result c)) /\
    dkeys (c_args c) = nd_args n /\
    (forall k v, In (k, v) (c_args c) -> look g (nd_str n) k = Some v) /\
    outputs_ok g (nd_str n) (nd_outs n) (c_result c).
Lemma call_ok_grows : forall h g g' c, grows g g' -> call_ok h g c -> call_ok h g' c.
Proof.
  intros h g g' c G (n & H1 & H2 & HX & H3 & H4 & H5 & H6). exists n. sp; auto.
  - intros. apply G. auto.
  - eapply outputs_ok_grows; eauto.
Qed.
Lemma calls_grow : forall h g g' cs, grows g g' -> Forall (call_ok h g) cs -> Forall (call_ok h g') cs.
Proof. intros h g g' cs G H. eapply Forall_impl; [|exact H]. intros c. now apply call_ok_grows. Qed.
(** What happened between two states of a run. *)
Definition between (h : nheap) (m m' : sm) (g : gs) : Prop :=
  exists calls t, sm_tr m' = sm_tr m ++ t /\ threaded (sm_w m) calls (sm_w m') /\ map c_node calls = computed h t /\ Forall (call_ok h g) calls.
Lemma between_refl : forall h m g, between h m m g.
Proof. intros h m g. exists [], []. rewrite app_nil_r. sp; auto. reflexivity. Qed.
Lemma between_trans : forall h a b c g, between h a b g -> between h b c g -> between h a c g.
Proof.
  intros h a b c g (cs & t & H1 & H2 & H3 & H4) (cs' & t' & H1' & H2' & H3' & H4'). exists (cs ++ cs'), (t ++ t'). sp.
  - now rewrite H1', H1, app_assoc.
  - eapply threaded_app; eauto.
  - unfold computed in *. rewrite map_app, flat_map_app. congruence.
  - apply Forall_app. auto.
Qed.
Lemma between_grows : forall h a b g g', grows g g' -> between h a b g -> between h a b g'.
Proof. intros h a b g g' G (cs & t & H1 & H2 & H3 & H4). exists cs, t. sp; auto. eapply calls_grow; eauto. Qed.
(** Only assignments and marks. *)
Lemma between_quiet : forall h (a b : sm) g t, sm_tr b = sm_tr a ++ t -> sm_w b = sm_w a -> computed h t = [] -> between h a b g.
Proof. intros h a b g t H1 H2 H3. exists [], t. sp; auto. Qed.

Lemma calls_spec : forall fuel h (m : sm) i m',
  (forall k n, nth_error h k = Some n -> good_node n) ->
  seen_ok h (sm_seen m) -> wf (sm_gs m) -> owned (sm_gs m) (sm_seen m) ->
  sample_helper func fuel h m i = Ok m' -> between h m m' (sm_gs m').
Proof.
  induction fuel as [|f IH]; intros h m i m' HG SO Wf OW H; [discriminate|]. cbn [sample_helper] in H.
  destruct (nth_error h i) as [n|] eqn:EN; [|discriminate].
  destruct (dget (nd_str n) (sm_seen m)) as [j|] eqn:ES.
  { destruct (j =? i) eqn:EJ; [|discriminate]. inversion H; subst. apply between_refl. }
  destruct (seen_ok_add _ _ _ _ SO EN ES) as [E0 SO0].
  assert (HGn := HG _ _ EN). destruct HGn as (NDs & NDo & HOut).
  set (str := nd_str n) in *.
  assert (NEW : ~ In str (dkeys (sm_seen m))) by now apply dget_None in ES.
  rewrite E0 in H.
  set (m1 := mkSM (sm_gs m) (sm_seen m ++ [(str, i)]) (sm_w m) (sm_tr m ++ [EEnter i])) in *.
  assert (L : forall ps (ma mb : sm) done new,
     (forall p, In p ps -> In p (nd_setters n)) -> NoDup (map fst ps) ->
     (forall x, In x (map fst ps) -> ~ In x done) ->
     sm_seen ma = (sm_seen m ++ [(str, i)]) ++ new -> seen_ok h (sm_seen ma) ->
     wf (sm_gs ma) -> owned (sm_gs ma) (sm_seen ma) ->
     (forall vr v, look (sm_gs ma) str vr = Some v -> is_fixed (sm_gs ma) str vr = true \/ In vr done) ->
     fold_res (sample_param (sample_helper func f h) h i n) ma ps = Ok mb ->
     exists new2, sm_seen mb = (sm_seen m ++ [(str, i)]) ++ new2 /\ seen_ok h (sm_seen mb) /\
       wf (sm_gs mb) /\ owned (sm_gs mb) (sm_seen mb) /\ grows (sm_gs ma) (sm_gs mb) /\
       (forall nd vr, In nd (dkeys (sm_seen m)) -> look (sm_gs mb) nd vr = look (sm_gs ma) nd vr) /\
       (forall vr v, look (sm_gs mb) str vr = Some v ->
          is_fixed (sm_gs mb) str vr = true \/ In vr done \/
          exists s, In (vr, s) ps /\ st_type s <> SCompute) /\
       between h ma mb (sm_gs mb)).
  { induction ps as [|[name s] ps IHp]; intros ma mb done new HP NDp HD ESa SOa Wa OWa OWN HF; cbn [fold_res] in HF.
    - inversion HF; subst. exists new. sp; auto using grows_refl, between_refl.
      intros vr v Hv. apply OWN in Hv. tauto.
    - destruct (sample_param (sample_helper func f h) h i n ma (name, s)) as [mc|] eqn:EP; [|discriminate].
      (* the dependency *)
      assert (R : exists md newd, (match st_dep s with Some j => if j =? i then Ok ma else sample_helper func f h ma j
                              | None => Ok ma end) = Ok md /\
         sm_seen md = sm_seen ma ++ newd /\ seen_ok h (sm_seen md) /\
         wf (sm_gs md) /\ grows (sm_gs ma) (sm_gs md) /\ owned (sm_gs md) (sm_seen md) /\
         (forall nd vr, In nd (dkeys (sm_seen ma)) -> look (sm_gs md) nd vr = look (sm_gs ma) nd vr) /\
         between h ma md (sm_gs md)).
      { assert (TRIV : exists md newd, Ok ma = Ok md /\
         sm_seen md = sm_seen ma ++ newd /\ seen_ok h (sm_seen md) /\
         wf (sm_gs md) /\ grows (sm_gs ma) (sm_gs md) /\ owned (sm_gs md) (sm_seen md) /\
         (forall nd vr, In nd (dkeys (sm_seen ma)) -> look (sm_gs md) nd vr = look (sm_gs ma) nd vr) /\
         between h ma md (sm_gs md)).
        { exists ma, []. rewrite app_nil_r. sp; auto using grows_refl, between_refl. }
        unfold sample_param in EP. destruct (st_dep s) as [j|]; auto. destruct (j =? i); auto.
        destruct (sample_helper func f h ma j) as [md|] eqn:ER; [|discriminate].
        destruct (value_spec func f h ma j md HG SOa Wa OWa ER) as (newd & P1 & P2 & P3 & P4 & P5 & P6 & _). exists md, newd. sp; auto. exact (IH h ma j md HG SOa Wa OWa ER). }
      destruct R as (md & newd & ER & D1 & D2 & D3 & D4 & D5 & D6 & D7).
      assert (Sa : forall nd, In nd (dkeys (sm_seen m)) -> In nd (dkeys (sm_seen ma))).
      { intros nd Hnd. rewrite ESa. unfold dkeys in *. rewrite !map_app, !in_app_iff. auto. }
      assert (Sstr : In str (dkeys (sm_seen ma))).
      { rewrite ESa. unfold dkeys. rewrite !map_app, !in_app_iff. left; right. now left. }
      assert (OWNd : forall vr v, look (sm_gs md) str vr = Some v -> is_fixed (sm_gs md) str vr = true \/ In vr done).
      { intros vr v Hv. rewrite D6 in Hv by auto. destruct D4 as (_ & D4 & _). rewrite D4. eauto. }
      assert (ABS : look (sm_gs md) str name = None \/ is_fixed (sm_gs md) str name = true).
      { destruct (look (sm_gs md) str name) as [v|] eqn:E; auto. right.
        destruct (OWNd _ _ E) as [Q|Q]; auto. exfalso. apply (HD name); auto. now left. }
      (* the assignment *)
      assert (S : sm_seen mc = sm_seen md /\ wf (sm_gs mc) /\ grows (sm_gs md) (sm_gs mc) /\
                  (forall x vr, (x, vr) <> (str, name) -> look (sm_gs mc) x vr = look (sm_gs md) x vr) /\
                  (st_type s = SCompute -> sm_gs mc = sm_gs md) /\
                  between h md mc (sm_gs mc)).
      { unfold sample_param in EP. rewrite ER in EP.
        assert (SET : forall v, sm_set (sm_log md (EAssign i name)) str name v = Ok mc ->
            sm_seen mc = sm_seen md /\ wf (sm_gs mc) /\ grows (sm_gs md) (sm_gs mc) /\
            (forall x vr, (x, vr) <> (str, name) -> look (sm_gs mc) x vr = look (sm_gs md) x vr) /\
            between h md mc (sm_gs mc)).
        { intros v HS. apply sm_set_frame in HS. simpl in HS. destruct HS as (F1 & F2 & F3 & F4).
          destruct (set_grows _ _ _ _ _ D3 F4 ABS) as (G1 & G2 & G3 & G4). sp; auto.
          apply (between_quiet _ _ _ _ [EAssign i name]); auto. }
        destruct (st_type s) eqn:ET; try discriminate.
        - destruct (st_const s) as [v|] eqn:EC; [|discriminate].
          destruct (SET _ EP) as (F1 & F2 & F3 & F4 & F5). sp; auto. discriminate.
        - destruct (st_dep s) as [j|] eqn:ED; [|discriminate]. destruct (nth_error h j) as [d|] eqn:EJ; [|discriminate].
          destruct (gs_item _ _ _) as [v|] eqn:EI; [|discriminate].
          destruct (SET _ EP) as (F1 & F2 & F3 & F4 & F5). sp; auto. discriminate.
        - destruct (st_dep s) as [j|] eqn:ED; [|discriminate]. destruct (nth_error h j) as [d|] eqn:EJ; [|discriminate].
          destruct (gs_item _ _ _) as [v|] eqn:EI; [|discriminate].
          destruct (SET _ EP) as (F1 & F2 & F3 & F4 & F5). sp; auto. discriminate.
        - inversion EP; subst. sp; auto using grows_refl, between_refl. }
      destruct S as (S1 & S2 & S3 & S4 & S5 & S6).
      set (done' := match st_type s with SCompute => done | _ => name :: done end).
      destruct (IHp mc mb done' (new ++ newd)) as (new2 & B1 & B2 & B3 & B4 & B5 & B6 & B7 & B8); auto.
      + intros p Hp. apply HP. now right.
      + now inversion NDp.
      + intros x Hx Hd. assert (Hd2 : x = name \/ In x done).
        { unfold done' in Hd. destruct (st_type s); simpl in Hd; intuition. }
        destruct Hd2 as [->|Hd2].
        * inversion NDp; subst. auto.
        * apply (HD x); auto. now right.
      + rewrite S1, D1, ESa. now rewrite app_assoc.
      + now rewrite S1.
      + intros nd vr v Hv. rewrite S1. destruct (string_dec nd str) as [->|NE].
        * right. rewrite D1. unfold dkeys in *. rewrite map_app, in_app_iff. auto.
        * rewrite S4 in Hv by congruence. destruct S3 as (_ & S3 & _). rewrite S3. eapply D5; eauto.
      + intros vr v Hv. destruct (string_dec vr name) as [->|NE].
        * unfold done'. destruct (st_type s) eqn:ET; try (right; now left).
          rewrite (S5 eq_refl) in *. destruct (OWNd _ _ Hv); auto.
        * rewrite S4 in Hv by congruence. destruct S3 as (_ & S3 & _). rewrite S3.
          destruct (OWNd _ _ Hv) as [Q|Q]; auto. right. unfold done'. destruct (st_type s); auto; now right.
      + assert (GR : grows (sm_gs ma) (sm_gs mb)).
        { eapply grows_trans; [exact D4|]. eapply grows_trans; [exact S3|exact B5]. }
        exists new2. sp; auto.
        * intros nd vr Hnd. rewrite B6 by auto.
          assert (nd <> str) by (intros ->; auto).
          rewrite S4 by congruence. apply D6. auto.
        * intros vr v Hv. destruct (B7 _ _ Hv) as [Q|[Q|(s' & Q1 & Q2)]]; auto.
          -- unfold done' in Q. destruct (st_type s) eqn:ET; auto; destruct Q as [<-|Q]; auto;
               right; right; exists s; (split; [now left|congruence]).
          -- right; right. exists s'. split; auto. now right.
        * eapply between_trans; [eapply between_grows; [eapply grows_trans; [exact S3|exact B5]|exact D7]|].
          eapply between_trans; [eapply between_grows; [exact B5|exact S6]|exact B8]. }
  destruct (fold_res (sample_param (sample_helper func f h) h i n) m1 (nd_setters n)) as [m2|] eqn:EF; [|discriminate].
  destruct (L (nd_setters n) m1 m2 [] []) as (new2 & B1 & B2 & B3 & B4 & B5 & B6 & B7 & B8); auto.
  { unfold m1; simpl. now rewrite app_nil_r. }
  { unfold m1; simpl. intros nd vr v Hv. destruct (OW _ _ _ Hv); auto. right.
    unfold dkeys in *. rewrite map_app, in_app_iff. auto. }
  { unfold m1; simpl. intros vr v Hv. destruct (OW _ _ _ Hv); auto. }
  unfold m1 in B5, B6; cbn [sm_gs] in B5, B6.
  (* the computed outputs are still absent or fixed *)
  assert (OA : forall o, In o (nd_outs n) -> look (sm_gs m2) str o = None \/ is_fixed (sm_gs m2) str o = true).
  { intros o Ho. destruct (look (sm_gs m2) str o) as [v|] eqn:E; auto. right.
    destruct (B7 _ _ E) as [Q|[[]|(s & Q1 & Q2)]]; auto. exfalso.
    destruct (HOut _ Ho) as (s' & H1 & H2). apply Q2.
    assert (s = s'); [|congruence]. assert (G1 := In_dget _ _ _ _ NDs Q1). assert (G2 := In_dget _ _ _ _ NDs H1). congruence. }
  assert (B0 : forall g, between h m m1 g) by (intros g; apply (between_quiet _ _ _ _ [EEnter i]); auto).
  destruct (existsb (fun ps => is_compute (snd ps)) (nd_setters n)) eqn:EX.
  2:{ inversion H; subst. cbn [sm_log sm_gs]. eapply between_trans; [apply B0|]. eapply between_trans; [exact B8|].
      apply (between_quiet _ _ _ _ [ELeave i]); auto. }
  destruct (compute func (sm_log m2 (ECompute i)) i n []) as [m3|] eqn:EC; [|discriminate].
  inversion H; subst. cbn [sm_log sm_gs].
  assert (FR := compute_frame _ _ _ _ _ _ EC). simpl in FR. destruct FR as [FR1 FR2].
  assert (QUIET : forall g, sm_w m3 = sm_w m2 -> nd_fn n = false -> between h m2 (sm_log m3 (ELeave i)) g).
  { intros g EW FN. apply (between_quiet _ _ _ _ [ECompute i; ELeave i]); auto.
    - cbn [sm_log sm_tr]. rewrite FR2. now rewrite <- app_assoc.
    - unfold computed. simpl. now rewrite EN, FN. }
  unfold compute in EC. destruct (nd_fn n) eqn:EFN; simpl in EC.
  2:{ inversion EC; subst. cbn [sm_log sm_gs]. eapply between_trans; [apply B0|]. eapply between_trans; [exact B8|]. now apply QUIET. }
  destruct (nd_func n) as [fn|]; [|discriminate].
  destruct (build_inputs _ _ _ _) as [args|] eqn:EB; [|discriminate].
  destruct (build_inputs_spec _ _ _ _ _ EB) as [BI1 BI2].
  destruct (func (sm_w m2) i args) as [w [r|]] eqn:EW; [|discriminate].
  assert (W3 : sm_w m3 = w).
  { unfold save_results in EC. destruct (save_results_gs _ _ _ _) as [g3 [e|]]; inversion EC; subst. reflexivity. }
  assert (ARGS : forall k v, In (k, v) args -> look (sm_gs m2) str k = Some v).
  { intros k v Hk. destruct (BI2 k v Hk) as [Q|[_ Q]]; [discriminate|exact Q]. }
  assert (FIN : grows (sm_gs m2) (sm_gs m3) /\ outputs_ok (sm_gs m3) str (nd_outs n) r).
  { rewrite save_alt in EC.
    assert (MANY : forall outs l, nd_outs n = outs -> r = Arr l ->
        (if negb (length l =? length outs) then Err ValueError
         else fold_res (fun m ov => sm_set m (nd_str n) (fst ov) (snd ov))
               (mkSM (sm_gs m2) (sm_seen m2) w (sm_tr m2 ++ [ECompute i])) (combine outs l)) = Ok m3 ->
        grows (sm_gs m2) (sm_gs m3) /\ length l = length outs /\
        (forall p o x, nth_error outs p = Some o -> nth_error l p = Some x ->
             is_fixed (sm_gs m3) str o = false ->
             exists w, store_value (gs_n (sm_gs m3)) x = Ok w /\ look (sm_gs m3) str o = Some w)).
    { intros outs l EO -> HF. destruct (negb (length l =? length outs)) eqn:EL; [discriminate|].
      apply negb_false_iff, Nat.eqb_eq in EL.
      destruct (save_many l (mkSM (sm_gs m2) (sm_seen m2) w (sm_tr m2 ++ [ECompute i])) _ _ outs B3 HF EL) as (Q1 & Q2 & Q3 & Q4); subst outs; auto. }
    destruct (nd_outs n) as [|o [|o2 outs]] eqn:EO.
    - destruct r as [|l]; [discriminate|]. destruct (MANY [] l) as (Q2 & Q4 & Q5); auto. split; auto. exists l. auto.
    - apply sm_set_frame in EC. destruct EC as (_ & _ & _ & EC). simpl in EC.
      destruct (set_grows _ _ _ _ _ B3 EC) as (Q1 & Q2 & Q3 & Q4).
      { apply OA. now left. }
      split; auto. simpl. destruct Q2 as (Q2a & Q2b & Q2c). intros Hf.
      destruct Q4 as [u [R1 R2]]; [rewrite <- Q2b; auto|]. exists u. rewrite Q2a. auto.
    - destruct r as [|l]; [discriminate|]. destruct (MANY (o :: o2 :: outs) l) as (Q2 & Q4 & Q5); auto. split; auto. exists l. auto. }
  destruct FIN as [F1 F2].
  eapply between_trans; [apply B0|]. eapply between_trans; [eapply between_grows; [exact F1|exact B8]|].
  exists [mkCall i (sm_w m2) args w r], [ECompute i; ELeave i]. sp.
  - cbn [sm_log sm_tr]. rewrite FR2. now rewrite <- app_assoc.
  - cbn. auto.
  - unfold computed. simpl. now rewrite EN, EFN.
  - constructor; auto. exists n. cbn [c_node c_before c_args c_after c_result]. sp; auto.
    intros k v Hk. apply F1. auto.
Qed.
End P.
