(** Properties C15 and C16: DependencyGraph (src/lightcurvelynx/graph_state.py 632-722). *)
From Coq Require Import String Ascii List Bool Arith Lia.
From Verif Require Import Base BaseFacts Numerals DependencyGraphModel.
Import ListNotations.
Open Scope string_scope.
Open Scope list_scope.

(** ** Invariant *)
Definition sources (E : list (string * string)) (p : string) : list string :=
  map fst (filter (fun e => String.eqb (snd e) p) E).
Definition targets (E : list (string * string)) (p : string) : list string :=
  map snd (filter (fun e => String.eqb (fst e) p) E).

Record dg_wf (g : dgraph) (E : list (string * string)) : Prop := {
  dw_nodup : NoDup (dg_params g);
  dw_in : forall p, dget p (dg_in g) = if smem p (dg_params g) then Some (sources E p) else None;
  dw_out : forall p, dget p (dg_out g) = if smem p (dg_params g) then Some (targets E p) else None;
  dw_ends : forall a b, In (a, b) E -> In a (dg_params g) /\ In b (dg_params g)
}.

Lemma filter_none : forall B (f : B -> bool) l, (forall x, In x l -> f x = false) -> filter f l = [].
Proof.
  induction l as [|x l IH]; simpl; intros H; auto. rewrite H by auto. apply IH. auto.
Qed.

Lemma smem_sadd : forall p q l, smem p (sadd q l) = String.eqb p q || smem p l.
Proof.
  intros. destruct (smem p (sadd q l)) eqn:E.
  - apply smem_In, In_sadd in E. destruct E as [->|E].
    + now rewrite String.eqb_refl.
    + apply smem_In in E. rewrite E. now rewrite orb_true_r.
  - apply smem_false in E. rewrite In_sadd in E. symmetry. apply orb_false_iff. split.
    + apply String.eqb_neq. intros ->. tauto.
    + apply smem_false. tauto.
Qed.

Lemma add_full_wf : forall g E p, dg_wf g E -> dg_wf (dg_add_full g p) E.
Proof.
  intros g E p [ND HI HO HE]. unfold dg_add_full. destruct (smem p (dg_params g)) eqn:EM.
  - constructor; auto.
  - assert (NI : ~ In p (dg_params g)) by now apply smem_false.
    constructor; simpl.
    + now apply NoDup_sadd.
    + intros q. rewrite dget_dset, smem_sadd, HI. destruct (String.eqb q p) eqn:EQ; simpl; auto.
      apply String.eqb_eq in EQ; subst. f_equal. unfold sources. rewrite filter_none; auto.
      intros [a b] HI'. simpl. apply String.eqb_neq. intros ->. apply HE in HI'. tauto.
    + intros q. rewrite dget_dset, smem_sadd, HO. destruct (String.eqb q p) eqn:EQ; simpl; auto.
      apply String.eqb_eq in EQ; subst. f_equal. unfold targets. rewrite filter_none; auto.
      intros [a b] HI'. simpl. apply String.eqb_neq. intros ->. apply HE in HI'. tauto.
    + intros a b HI'. rewrite !In_sadd. apply HE in HI'. tauto.
Qed.

Lemma add_edge_iff : forall g E a b, dg_wf g E ->
  (is_ok (dg_add_edge g a b) = true <-> In a (dg_params g) /\ In b (dg_params g)).
Proof.
  intros g E a b [ND HI HO HE]. unfold dg_add_edge.
  destruct (smem a (dg_params g)) eqn:EA; simpl.
  - destruct (smem b (dg_params g)) eqn:EB; simpl.
    + unfold dappend. rewrite HI, HO, EA, EB. simpl.
      apply smem_In in EA. apply smem_In in EB. tauto.
    + apply smem_false in EB. split; [discriminate|tauto].
  - apply smem_false in EA. split; [discriminate|tauto].
Qed.

Lemma apply_wf : forall g E o, dg_wf g E ->
  dg_wf (dg_apply g o) (E ++ match o with
                             | DGEdge a b => if is_ok (dg_add_edge g a b) then [(a, b)] else []
                             | _ => [] end).
Proof.
  intros g E o W. destruct o as [p n|v|a b]; simpl.
  - rewrite app_nil_r. unfold dg_add_parameter. destruct n as [nd|].
    + apply add_full_wf. destruct W as [ND HI HO HE]. constructor; simpl; auto.
    + now apply add_full_wf.
  - rewrite app_nil_r. apply add_full_wf. destruct W as [ND HI HO HE]. constructor; simpl; auto.
  - assert (K := add_edge_iff g E a b W). assert (W' := W). destruct W as [ND HI HO HE].
    destruct (dg_add_edge g a b) as [g'|e] eqn:EE; simpl in *.
    2:{ now rewrite app_nil_r. }
    destruct (proj1 K eq_refl) as [KA KB].
    assert (KA' := KA). assert (KB' := KB). apply smem_In in KA'. apply smem_In in KB'.
    unfold dg_add_edge, dappend in EE. rewrite HI, HO, KA', KB' in EE. simpl in EE.
    inversion EE; subst; clear EE. constructor; simpl; auto.
    + intros p. rewrite dget_dset. unfold sources. rewrite filter_app, map_app. simpl.
      rewrite (String.eqb_sym b p). destruct (String.eqb p b) eqn:EP.
      * apply String.eqb_eq in EP; subst. rewrite KB'. reflexivity.
      * simpl. rewrite app_nil_r. apply HI.
    + intros p. rewrite dget_dset. unfold targets. rewrite filter_app, map_app. simpl.
      rewrite (String.eqb_sym a p). destruct (String.eqb p a) eqn:EP.
      * apply String.eqb_eq in EP; subst. rewrite KA'. reflexivity.
      * simpl. rewrite app_nil_r. apply HO.
    + intros x y H. apply in_app_iff in H. destruct H as [H|[H|[]]]; auto. inversion H; subst. auto.
Qed.

Lemma run_wf : forall ops g E, dg_wf g E -> dg_wf (dg_run g ops) (E ++ dg_edges g ops).
Proof.
  induction ops as [|o ops IH]; intros g E W; simpl.
  - now rewrite app_nil_r.
  - assert (A := IH _ _ (apply_wf g E o W)). unfold dg_run in *. simpl.
    destruct o; simpl in *; rewrite ?app_nil_r in A; auto. rewrite <- app_assoc in A. exact A.
Qed.

Lemma new_wf : dg_wf dg_new [].
Proof. constructor; simpl; auto; try constructor; tauto. Qed.

(** ** C15 *)
(** The full names that the calls of a history add: parameters and constants. *)
Fixpoint added (g : dgraph) (ops : list dgop) : list string :=
  match ops with
  | [] => []
  | DGParam p None :: ops' => p :: added (dg_apply g (DGParam p None)) ops'
  | DGParam p (Some nd) :: ops' =>
      (nd ++ String dot p)%string :: added (dg_apply g (DGParam p (Some nd))) ops'
  | DGConst v :: ops' => snd (dg_add_constant g v) :: added (dg_apply g (DGConst v)) ops'
  | DGEdge a b :: ops' => added (dg_apply g (DGEdge a b)) ops'
  end.

Lemma params_full : forall g p x, In x (dg_params (dg_add_full g p)) <-> x = p \/ In x (dg_params g).
Proof.
  intros. unfold dg_add_full. destruct (smem p (dg_params g)) eqn:E; simpl.
  - apply smem_In in E. split; [tauto|]. intros [->|H]; auto.
  - apply In_sadd.
Qed.

Lemma params_added : forall ops g x,
  In x (dg_params (dg_run g ops)) <-> In x (dg_params g) \/ In x (added g ops).
Proof.
  induction ops as [|o ops IH]; intros g x; simpl.
  - tauto.
  - unfold dg_run in *. simpl. rewrite IH. destruct o as [p [nd|]|v|a b]; simpl.
    + rewrite params_full. simpl. split; [intros [[->|H]|H]|intros [H|[<-|H]]]; auto.
    + rewrite params_full. split; [intros [[->|H]|H]|intros [H|[<-|H]]]; auto.
    + rewrite params_full. simpl. split; [intros [[->|H]|H]|intros [H|[<-|H]]]; auto.
    + destruct (dg_add_edge g a b) as [g'|] eqn:E; [|tauto].
      unfold dg_add_edge in E. destruct (_ || _); [discriminate|].
      destruct (dappend b a (dg_in g)); [|discriminate].
      destruct (dappend a b (dg_out g)); inversion E; subst. simpl. tauto.
Qed.

(** After any history: the parameters are exactly the added ones, each once; [incoming] and
    [outgoing] list, in call order and with multiplicity, the ends of the successful edges. *)
Theorem C15_edges_recorded_symmetrically : forall ops,
  let g := dg_run dg_new ops in
  let E := dg_edges dg_new ops in
  NoDup (dg_params g) /\
  (forall p, In p (dg_params g) <-> In p (added dg_new ops)) /\
  (forall p, In p (dg_params g) ->
     dget p (dg_in g) = Some (sources E p) /\ dget p (dg_out g) = Some (targets E p)) /\
  (forall p, ~ In p (dg_params g) -> dget p (dg_in g) = None /\ dget p (dg_out g) = None) /\
  (forall a b, In (a, b) E -> In a (dg_params g) /\ In b (dg_params g)).
Proof.
  intros ops g E. assert (W : dg_wf g E) by apply (run_wf ops dg_new [] new_wf).
  destruct W as [ND HI HO HE]. split; auto. split; [|split; [|split]]; auto.
  - intros p. unfold g. rewrite params_added. simpl. tauto.
  - intros p H. apply smem_In in H. rewrite HI, HO, H. auto.
  - intros p H. apply smem_false in H. rewrite HI, HO, H. auto.
Qed.
(** The same as counts, both ways. *)
Theorem C15_counts_agree : forall ops a b la lb,
  let g := dg_run dg_new ops in
  dget a (dg_in g) = Some la -> dget b (dg_out g) = Some lb ->
  count_occ String.string_dec la b =
    length (filter (fun e => String.eqb (fst e) b && String.eqb (snd e) a) (dg_edges dg_new ops)) /\
  count_occ String.string_dec lb a =
    length (filter (fun e => String.eqb (fst e) b && String.eqb (snd e) a) (dg_edges dg_new ops)).
Proof.
  intros ops a b la lb g H1 H2. destruct (run_wf ops dg_new [] new_wf) as [ND HI HO HE].
  unfold g in *. simpl in HI, HO. rewrite HI in H1. rewrite HO in H2.
  destruct (smem a _); inversion H1; subst. destruct (smem b _); inversion H2; subst.
  unfold sources, targets. clear. induction (dg_edges dg_new ops) as [|[x y] E IH]; simpl; auto.
  destruct IH as [I1 I2]. split.
  - destruct (String.eqb y a) eqn:EA; simpl.
    + destruct (string_dec x b) as [->|NE].
      * rewrite String.eqb_refl. simpl. now rewrite I1.
      * assert (EB : String.eqb x b = false) by now apply String.eqb_neq. rewrite EB. simpl. auto.
    + rewrite andb_false_r. auto.
  - destruct (String.eqb x b) eqn:EB; simpl.
    + destruct (string_dec y a) as [->|NE].
      * rewrite String.eqb_refl. simpl. now rewrite I2.
      * assert (EA : String.eqb y a = false) by now apply String.eqb_neq. rewrite EA. auto.
    + auto.
Qed.
Theorem C15_add_edge_raises_iff : forall ops a b,
  let g := dg_run dg_new ops in
  (dg_add_edge g a b = Err KeyError <-> ~ (In a (dg_params g) /\ In b (dg_params g))) /\
  (forall e, dg_add_edge g a b = Err e -> e = KeyError).
Proof.
  intros ops a b g. assert (K := add_edge_iff g _ a b (run_wf ops dg_new [] new_wf)).
  assert (EK : forall e, dg_add_edge g a b = Err e -> e = KeyError).
  { intros e H. unfold dg_add_edge in H. destruct (_ || _); [inversion H; auto|].
    destruct (dappend b a (dg_in g)); [|inversion H; auto].
    destruct (dappend a b (dg_out g)); inversion H; auto. }
  split; auto. destruct (dg_add_edge g a b) as [g'|e]; simpl in K.
  - split; [discriminate|]. intros H. exfalso. apply H, K. auto.
  - split.
    + intros _ H. apply K in H. discriminate.
    + intros _. now rewrite (EK e).
Qed.
Example C15_applies :
  let ops := [DGParam "x" (Some "n"); DGConst "5"; DGEdge "const_0=5" "n.x"; DGEdge "y" "n.x"] in
  dg_edges dg_new ops = [("const_0=5", "n.x")] /\
  dget "n.x" (dg_in (dg_run dg_new ops)) = Some ["const_0=5"].
Proof. split; reflexivity. Qed.
Print Assumptions C15_edges_recorded_symmetrically.
Print Assumptions C15_counts_agree.
Print Assumptions C15_add_edge_raises_iff.

(** ** C16 *)
Lemma const_name_inj : forall i j v w, const_name i v = const_name j w -> i = j /\ v = w.
Proof.
  unfold const_name. intros i j v w H. cbn [append] in H. repeat (injection H as H).
  apply first_sep in H; try apply decimal_no_equals. destruct H as [H1 H2].
  split; auto. now apply decimal_inj.
Qed.
Lemma consts_apply : forall g o, dg_consts (dg_apply g o) =
  match o with DGConst _ => S (dg_consts g) | _ => dg_consts g end.
Proof.
  intros g o. destruct o as [p [nd|]|v|a b]; simpl; unfold dg_add_full; simpl;
    try (destruct (smem _ _); reflexivity).
  destruct (dg_add_edge g a b) as [g'|] eqn:E; auto. unfold dg_add_edge in E.
  destruct (_ || _); [discriminate|]. destruct (dappend b a (dg_in g)); [|discriminate].
  destruct (dappend a b (dg_out g)); inversion E; subst; auto.
Qed.
Lemma const_names_spec : forall ops g x, In x (dg_const_names g ops) ->
  exists k v, x = const_name k v /\ dg_consts g <= k.
Proof.
  induction ops as [|o ops IH]; simpl; intros g x H; [tauto|].
  assert (C := consts_apply g o). destruct o as [p n|v|a b]; simpl in *.
  - destruct (IH _ _ H) as (k & w & -> & Hk). exists k, w. split; auto. lia.
  - destruct H as [<-|H]; [eauto|]. destruct (IH _ _ H) as (k & w & -> & Hk). exists k, w. split; auto. lia.
  - destruct (IH _ _ H) as (k & w & -> & Hk). exists k, w. split; auto. lia.
Qed.
Theorem C16_constants_distinct : forall ops g, NoDup (dg_const_names g ops).
Proof.
  induction ops as [|o ops IH]; simpl; intros g; [constructor|].
  destruct o as [p n|v|a b]; auto. constructor; auto.
  intros H. apply const_names_spec in H. destruct H as (k & w & E & Hk).
  assert (C := consts_apply g (DGConst v)). simpl in C. simpl in E. apply const_name_inj in E. lia.
Qed.
(** ... and each of them is a parameter of the resulting graph. *)
Theorem C16_constants_present : forall ops x,
  In x (dg_const_names dg_new ops) -> In x (dg_params (dg_run dg_new ops)).
Proof.
  assert (G : forall ops g x, In x (dg_const_names g ops) -> In x (added g ops)).
  { induction ops as [|o ops IH]; simpl; intros g x H; [tauto|].
    destruct o as [p [nd|]|v|a b]; simpl in *; auto. destruct H; auto. }
  intros ops x H. apply params_added. right. auto.
Qed.
Example C16_applies : dg_const_names dg_new [DGConst "5"; DGConst "5"; DGConst "12"] =
  ["const_0=5"; "const_1=5"; "const_2=12"].
Proof. reflexivity. Qed.
Print Assumptions C16_constants_distinct.
Print Assumptions C16_constants_present.
