(** [construct_snia_source]: the graph of nodes it builds, and that sampling it succeeds (for C104). *)
From Coq Require Import Reals String Ascii List Bool Arith ZArith Lia Lra Relations.
From Verif Require Import Base BaseFacts RealBase ScipyModel ScipyProps SniaModel SniaProps GraphStateModel GraphStateProps
  NodeGraphModel NodeGraphProofs NodeGraphProps NodeDepProps NodeRunProps SniaSourceModel SniaSourceFuncs.
Import ListNotations.
Open Scope string_scope.
Open Scope list_scope.
Open Scope nat_scope.

(** ** The graph *)
Section Graph.
Context {A : Type} (none k1 k2 k3 k4 k5 k6 k7 k8 k9 k10 k11 k12 k13 : value A).
Definition snia_heap : nheap A := Eval vm_compute in
  match snia_nodes none (mkConst k1 k2 k3 k4 k5 k6 k7 k8 k9 k10 k11 k12 k13) with Ok (h, _) => h | _ => [] end.
Lemma snia_nodes_eq : snia_nodes none (mkConst k1 k2 k3 k4 k5 k6 k7 k8 k9 k10 k11 k12 k13) = Ok (snia_heap, 13).
Proof. vm_compute. reflexivity. Qed.
Definition snia_named : nheap A := Eval vm_compute in match start_heap 15 snia_heap 13 with Ok h => h | _ => [] end.
Lemma snia_names : forall f, start_heap (15 + f) snia_heap 13 = Ok snia_named.
Proof. intros f. vm_compute. reflexivity. Qed.

(** Boolean tests of the structure. *)
Fixpoint nodupb (l : list string) : bool := match l with [] => true | x :: l' => negb (existsb (String.eqb x) l') && nodupb l' end.
Lemma nodupb_ok : forall l, nodupb l = true -> NoDup l.
Proof.
  induction l as [|x l IH]; intros H; constructor; simpl in H; apply andb_true_iff in H; destruct H as [H1 H2]; auto.
  intros HI. apply negb_true_iff in H1. assert (X : existsb (String.eqb x) l = true) by (apply existsb_exists; exists x; split; auto; apply String.eqb_refl). congruence.
Qed.
Definition node_wfb (n : node A) : bool :=
  nodupb (map fst (nd_setters n)) && nodupb (nd_outs n) &&
  forallb (fun o => existsb (fun p => String.eqb (fst p) o && is_compute (snd p)) (nd_setters n)) (nd_outs n).
Lemma wfb_ok : forall h : nheap A, forallb node_wfb h = true -> well_formed h.
Proof.
  intros h H k n En. rewrite forallb_forall in H. specialize (H n (nth_error_In _ _ En)). unfold node_wfb in H.
  apply andb_true_iff in H. destruct H as [H H3]. apply andb_true_iff in H. destruct H as [H1 H2].
  split; [now apply nodupb_ok|]. split; [now apply nodupb_ok|]. intros o Ho. rewrite forallb_forall in H3. specialize (H3 o Ho).
  apply existsb_exists in H3. destruct H3 as ([o' s] & X1 & X2). simpl in X2. apply andb_true_iff in X2. destruct X2 as [X2 X3].
  apply String.eqb_eq in X2. subst. exists s. split; auto. unfold is_compute in X3. destruct (st_type s); auto; discriminate.
Qed.
Lemma deps_ok : forall h : nheap A, (forall i, In i (seq 0 (length h)) -> forallb (fun j => j <? i) (ndeps h i) = true) -> no_dangling h /\ acyclic h.
Proof.
  intros h H. assert (D : forall i j, depends h i j -> j < i /\ i < length h).
  { intros i j HD. assert (L : i < length h) by (destruct HD as (n & _ & _ & En & _); apply nth_error_Some; congruence).
    apply depends_ndeps in HD. assert (Q : forallb (fun j => j <? i) (ndeps h i) = true) by (apply H, in_seq; lia).
    rewrite forallb_forall in Q. specialize (Q j HD). apply Nat.ltb_lt in Q. lia. }
  split; [intros i j HD; apply D in HD; lia|]. exists (fun i => i). intros i j HD. now apply D in HD.
Qed.
Lemma snia_wf : well_formed snia_heap.
Proof. apply wfb_ok. vm_compute. reflexivity. Qed.
Lemma snia_deps : no_dangling snia_heap /\ acyclic snia_heap.
Proof. apply deps_ok. intros i Hi. simpl in Hi. repeat (destruct Hi as [<-|Hi]; [vm_compute; reflexivity|]). destruct Hi. Qed.
Lemma snia_distinct : forall root, distinct_names snia_heap snia_named root.
Proof.
  intros root a b n1 n2 _ _ Ha Hb E.
  assert (ND : NoDup (map (fun n => nd_str n) snia_named)) by (apply nodupb_ok; vm_compute; reflexivity).
  rewrite NoDup_nth_error in ND. apply ND.
  - rewrite map_length. apply nth_error_Some. congruence.
  - rewrite !nth_error_map, Ha, Hb. simpl. now rewrite E.
Qed.
(** All the nodes belong to the model. *)
Lemma snia_reaches : forall k, k < 14 -> reaches snia_heap 13 k.
Proof.
  assert (D : forall i j, In j (ndeps snia_heap i) -> reaches snia_heap 13 i -> reaches snia_heap 13 j).
  { intros i j HI HR. eapply rt_trans; [exact HR|]. apply rt_step. now apply depends_ndeps. }
  assert (R13 : reaches snia_heap 13 13) by apply rt_refl.
  assert (R12 : reaches snia_heap 13 12) by (apply (D 13); auto; vm_compute; tauto).
  assert (R11 : reaches snia_heap 13 11) by (apply (D 13); auto; vm_compute; tauto).
  assert (R10 : reaches snia_heap 13 10) by (apply (D 13); auto; vm_compute; tauto).
  assert (R9 : reaches snia_heap 13 9) by (apply (D 13); auto; vm_compute; tauto).
  assert (R8 : reaches snia_heap 13 8) by (apply (D 9); auto; vm_compute; tauto).
  assert (R7 : reaches snia_heap 13 7) by (apply (D 9); auto; vm_compute; tauto).
  assert (R6 : reaches snia_heap 13 6) by (apply (D 9); auto; vm_compute; tauto).
  assert (R5 : reaches snia_heap 13 5) by (apply (D 9); auto; vm_compute; tauto).
  assert (R4 : reaches snia_heap 13 4) by (apply (D 13); auto; vm_compute; tauto).
  assert (R3 : reaches snia_heap 13 3) by (apply (D 4); auto; vm_compute; tauto).
  assert (R2 : reaches snia_heap 13 2) by (apply (D 4); auto; vm_compute; tauto).
  assert (R1 : reaches snia_heap 13 1) by (apply (D 4); auto; vm_compute; tauto).
  assert (R0 : reaches snia_heap 13 0) by (apply (D 4); auto; vm_compute; tauto).
  intros k Hk. do 14 (destruct k as [|k]; [assumption|]). lia.
Qed.
End Graph.

(** ** Values *)
Open Scope R_scope.
Definition col (n : nat) (v : value cell) (xs : list R) : Prop := length xs = n /\ v = pack n (map Some xs).
Definition ocol (n : nat) (v : value cell) (xs : list (option R)) : Prop := length xs = n /\ v = pack n xs.
Inductive kind := KAny | KNum | KFin.
Definition kind_of (k : nat) (name : string) : kind :=
  match k with
  | 4%nat => if String.eqb name "t0" || String.eqb name "distance" then KAny else KFin
  | 5%nat => if String.eqb name "function_node_result" then KNum else KFin
  | 9%nat => if String.eqb name "distmod" || String.eqb name "function_node_result" then KNum else KFin
  | 13%nat => if String.eqb name "distance" then KAny else if String.eqb name "x0" then KNum else KFin
  | _ => KFin
  end.
Definition good (n k : nat) (name : string) (v : value cell) : Prop :=
  match kind_of k name with KAny => True | KNum => exists xs, ocol n v xs | KFin => exists xs, col n v xs end.

Lemma const_col : forall n x, (1 <= n)%nat -> col n (if (n =? 1)%nat then num x else GraphStateModel.Arr (repeat (num x) n)) (repeat x n).
Proof. intros n x HN. split; [apply repeat_length|]. now apply const_pack. Qed.
Lemma col_num : forall n v, (exists xs, col n v xs) -> exists xs, ocol n v xs.
Proof. intros n v (xs & H1 & H2). exists (map Some xs). split; auto. now rewrite map_length. Qed.
Lemma pack_expanded : forall n xs u, (1 <= n)%nat -> expands n (pack n xs) u -> u = pack n xs.
Proof.
  intros n xs u HN [[-> ->]|[NE [(a & E & _)|(l & E & HL & ->)]]]; auto. exfalso. unfold pack in E. destruct (n =? 1)%nat eqn:X; [|discriminate].
  apply Nat.eqb_eq in X. congruence.
Qed.

Section Runs.
Context (norm : (nat -> R) -> nat -> R * nat) (own : nat -> nat -> R) (given : option (nat -> R)).
Context (pa : parts) (n : nat) (tmin tmax : R).
Hypothesis HN : (1 <= n)%nat.
Definition the_heap : nheap cell := snia_heap (Atom CNone) (num tmin) (num tmax) (num (- (1 / 2))) (num (1 / 2)) (num 7) (num 12) (num 0)
  (num (2 / 100)) (num (- (193 / 10))) (num (1 / 10)) (num (14 / 100)) (num (31 / 10)) (num (1 / 100)).
Definition the_named : nheap cell := snia_named (Atom CNone) (num tmin) (num tmax) (num (- (1 / 2))) (num (1 / 2)) (num 7) (num 12) (num 0)
  (num (2 / 100)) (num (- (193 / 10))) (num (1 / 10)) (num (14 / 100)) (num (31 / 10)) (num (1 / 100)).
Notation func := (snia_func norm own given the_heap pa n).
Notation good := (good n).

Lemma args_of : forall k names (args : dict (value cell)), (forall a v, In (a, v) args -> good k a v) -> map fst args = names ->
  forall a, In a names -> NoDup names -> exists v, dget a args = Some v /\ good k a v.
Proof.
  intros k names args HG EA a Ha ND. rewrite <- EA in Ha. apply in_map_iff in Ha. destruct Ha as ([a' v] & <- & HI).
  exists v. split; [|now apply HG]. apply In_dget; auto. rewrite <- EA in ND. exact ND.
Qed.
Lemma result_good : forall k o out, kind_of k o = KFin -> length out = n -> exists u, expands n (pack n (map Some out)) u /\ good k o u.
Proof.
  intros k o out EK HL. exists (pack n (map Some out)). split; [apply pack_expands; auto; now rewrite map_length|].
  unfold SniaSourceRun.good. rewrite EK. exists out. split; auto.
Qed.
Lemma result_num : forall k o out, kind_of k o = KNum -> length out = n -> exists u, expands n (pack n out) u /\ good k o u.
Proof.
  intros k o out EK HL. exists (pack n out). split; [now apply pack_expands|]. unfold SniaSourceRun.good. rewrite EK. exists out. split; auto.
Qed.
Ltac fetch a HG EA :=
  let v := fresh "v" in let D := fresh "D" in let G := fresh "G" in let xs := fresh "xs" in let L := fresh "L" in
  destruct (args_of _ _ _ HG EA a ltac:(simpl; tauto) ltac:(apply nodupb_ok; reflexivity)) as (v & D & G);
  unfold SniaSourceRun.good in G; cbn in G; destruct G as (xs & L & ->).
Ltac one_param :=
  unfold param_runs; split; [reflexivity|]; cbn [st_type st_dep st_src st_const];
  first [ (* constant *) eexists; split; [reflexivity|]; unfold SniaSourceRun.good; cbn;
            first [ exact I | eexists; apply const_col; exact HN ]
        | (* link *) eexists _, _; split; [reflexivity|]; split; [reflexivity|]; split; [cbn; tauto|];
            unfold SniaSourceRun.good; cbn; intros v G; first [ exact G | apply col_num; exact G ]
        | (* output *) split; [reflexivity|]; cbn; tauto ].
Ltac params := let H := fresh "H" in intros name s H; cbn in H; repeat (destruct H as [H|H]; [injection H as <- <-; one_param|]); destruct H.
Ltac do_uniform HG EA := fetch "low" HG EA; fetch "high" HG EA;
  match goal with |- exists w' r, snia_func _ _ _ _ _ _ ?w ?i _ = _ /\ _ => edestruct (run_uniform norm own given the_heap pa n HN w i) as (? & ? & ? & ? & _) end; [reflexivity|reflexivity|reflexivity|eassumption|eassumption|assumption|assumption|];
  eexists _, _; split; [eassumption|]; split; [exact I|]; now apply result_good.
Ltac do_normal HG EA := fetch "loc" HG EA; fetch "scale" HG EA;
  match goal with |- exists w' r, snia_func _ _ _ _ _ _ ?w ?i _ = _ /\ _ => edestruct (run_normal norm own given the_heap pa n HN w i) as (? & ? & ? & ? & _) end; [reflexivity|reflexivity|reflexivity|eassumption|eassumption|assumption|assumption|];
  eexists _, _; split; [eassumption|]; split; [exact I|]; now apply result_good.
Ltac do_x1 HG EA := fetch "hostmass" HG EA;
  match goal with |- exists w' r, snia_func _ _ _ _ _ _ ?w ?i _ = _ /\ _ => edestruct (run_x1 norm own given the_heap pa n HN w i) as (? & ? & ? & ? & _) end; [reflexivity|reflexivity|eassumption|assumption|];
  eexists _, _; split; [eassumption|]; split; [exact I|]; now apply result_good.
Lemma nodes_run : forall k nd, nth_error the_named k = Some nd -> node_runs func (fun _ => True) good the_named n k nd.
Proof.
  intros k nd E.
  destruct k as [|[|[|[|[|[|[|[|[|[|[|[|[|[|k]]]]]]]]]]]]]]; [..|destruct k; discriminate];
    (cbn in E; injection E as <-; split; [reflexivity|]; split; [params|]).
  all: intros _ FN; try discriminate FN.
  all: split; [discriminate|]; split;
    [cbn; let H := fresh in intros a H; repeat (destruct H as [<-|H]; [eexists; split; [cbn; eauto 8|discriminate]|]); destruct H|];
    intros w args _ EA HG; cbn [nd_outs]; cbn [nd_args] in EA.
  11-12: do_normal HG EA. 10: do_uniform HG EA. 7-8: do_normal HG EA. 6: do_x1 HG EA. 1-3: do_uniform HG EA.
  - edestruct (run_pdf norm own given the_heap pa n HN w 3) as (w' & out & R & L & _); [reflexivity|reflexivity|]. eexists w', _. split; [exact R|]. split; auto. now apply result_good.
  - fetch "redshift" HG EA. edestruct (run_distmod norm own given the_heap pa n HN w 5) as (w' & R); [reflexivity|reflexivity|exact D|auto|]. eexists w', _. split; [exact R|]. split; auto.
    apply result_num; [reflexivity|now rewrite map_length].
  - fetch "distmod" HG EA. fetch "x1" HG EA. fetch "c" HG EA. fetch "alpha" HG EA. fetch "beta" HG EA. fetch "m_abs" HG EA.
    edestruct (run_x0 norm own given the_heap pa n HN w 9) as (w' & out & R & LO & _); [reflexivity|reflexivity|eassumption|eassumption|eassumption|eassumption|eassumption|eassumption|..];
      try (rewrite map_length); auto. eexists w', _. split; [exact R|]. split; auto. now apply result_num.
Qed.
End Runs.
