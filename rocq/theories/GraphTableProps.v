(** C07: what a table given to [from_table] says (src/lightcurvelynx/graph_state.py 215-239). *)
From Coq Require Import String Ascii List Bool Arith ZArith Lia.
From Verif Require Import Base BaseFacts GraphStateModel GraphStateProofs GraphStateProofs2
  GraphStateProofs3 GraphStateProofs4 GraphStateProps GraphStateMore.
Import ListNotations.
Open Scope string_scope.
Open Scope list_scope.
Open Scope nat_scope.

(** What a table of [n] rows says about a parameter: the cell of the only row, or the column. *)
Definition told {A} (t : table A) (node var : string) (w : value A) : Prop :=
  exists col, In (full_name node var, col) t /\ (col = [w] \/ length col <> 1 /\ w = Arr col).
(** The columns of a table have different names and the same length. *)
Definition proper_table {A} (n : nat) (t : table A) : Prop :=
  NoDup (map fst t) /\ forall c, In c t -> length (snd c) = n.
(** "node.param": exactly one dot. *)
Definition two_part (k : string) : Prop := exists node var, has_dot node = false /\ has_dot var = false /\ k = full_name node var.

Section P.
Variable A : Type.
Definition cell_value (c : list (value A)) : value A := match c with [v] => v | l => Arr l end.
Definition as_dict (t : table A) : dict (dentry A) := map (fun c => (fst c, DVal (cell_value (snd c)))) t.
Lemma table_step : forall n (s : gs A) c, gs_n s = n -> length (snd c) = n -> 1 <= n -> from_table_step s c = from_dict_step s (fst c, DVal (cell_value (snd c))).
Proof.
  intros n s [k col] HS HL HN. unfold from_table_step, from_dict_step. cbn [fst snd] in *. destruct (has_dot k) eqn:HD.
  - destruct (split_dot k) as [|a [|b [|]]]; auto. rewrite HS. clear HS. rewrite <- HL in *. destruct col as [|v [|w col]]; cbn [length Nat.eqb cell_value] in *; [lia|reflexivity|reflexivity].
  - rewrite split_dot_nodot by auto. reflexivity.
Qed.
Lemma table_steps : forall n (t : table A) (s : gs A), wf s -> gs_n s = n -> 1 <= n -> (forall c, In c t -> length (snd c) = n) -> fold_res (@from_table_step A) s t = fold_res (@from_dict_step A) s (as_dict t).
Proof.
  intros n t. induction t as [|c t IH]; intros s W HS HN HC; cbn [fold_res as_dict map]; auto.
  rewrite (table_step n) by (auto; apply HC; now left). destruct (from_dict_step s (fst c, DVal (cell_value (snd c)))) as [s'|] eqn:E; cbn [bind]; auto.
  assert (X : wf s' /\ gs_n s' = n).
  2:{ destruct X. apply IH; auto. intros; apply HC; now right. }
  unfold from_dict_step in E. cbn [fst snd] in E. destruct (has_dot (fst c)); [|discriminate].
  destruct (split_dot (fst c)) as [|a [|b [|]]]; try discriminate. destruct (gs_set s a b (cell_value (snd c)) false) as [s2 [e|]] eqn:ES; [discriminate|].
  injection E as <-. destruct (set_spec _ _ _ _ _ _ _ W ES) as (W2 & N2 & _). split; auto. now rewrite N2.
Qed.
Lemma as_dict_keys : forall t, dkeys (as_dict t) = map fst t.
Proof. intros. unfold dkeys, as_dict. rewrite map_map. reflexivity. Qed.
Lemma as_dict_In : forall t k e, In (k, e) (as_dict t) <-> exists col, In (k, col) t /\ e = DVal (cell_value col).
Proof.
  intros. unfold as_dict. rewrite in_map_iff. split.
  - intros ([k' col] & E & HI). cbn in E. injection E as <- <-. eauto.
  - intros (col & HI & ->). exists (k, col). auto.
Qed.
End P.

Theorem C07_from_table : forall A n (t : table A), proper_table n t -> t <> [] ->
  ((exists r, gs_from_table t = Ok r) <-> 1 <= n /\ forall c, In c t -> two_part (fst c)) /\
  (forall e, gs_from_table t = Err e -> e = ValueError) /\
  (forall r, gs_from_table t = Ok r -> gs_n r = n /\ forall node var w, reads r node var w <-> told t node var w).
Proof.
  intros A n t [ND HC] NE. assert (TL : table_len t = n). { destruct t as [|[k c] t]; [congruence|]. cbn. exact (HC (k, c) (or_introl eq_refl)). }
  assert (PD : proper_dict (as_dict A t)).
  { split; [now rewrite as_dict_keys|]. split.
    - intros node d HI. apply as_dict_In in HI. destruct HI as (? & _ & X). discriminate.
    - intros node var v d HI. apply as_dict_In in HI. destruct HI as (? & _ & X). discriminate. }
  unfold gs_from_table. rewrite TL. destruct (le_lt_dec 1 n) as [HN|HN].
  2:{ assert (n = 0) by lia. subst n. rewrite H. cbn. split; [split; [intros [r X]; discriminate|lia]|]. split; [intros e X; now injection X|]. intros r X; discriminate. }
  assert (EQ : bind (gs_new (Z.of_nat n)) (fun s => fold_res (@from_table_step A) s t) = gs_from_dict (as_dict A t) (Z.of_nat n)).
  { unfold gs_from_dict. destruct (gs_new (Z.of_nat n)) as [s|] eqn:EN; auto. cbn [bind].
    unfold gs_new in EN. destruct (Z.of_nat n <? 1)%Z; [discriminate|]. injection EN as <-. rewrite Nat2Z.id. apply (table_steps A n); auto. now apply wf_fresh. }
  rewrite EQ. destruct (C07_from_dict A (as_dict A t) (Z.of_nat n) PD) as [OK VAL]. rewrite Nat2Z.id in *.
  assert (NW : forall col, length col = n -> ~ wrong_length n (cell_value A col)).
  { intros col L [W1 (l & W2 & W3)]. destruct col as [|v [|w col]]; cbn in *; [|congruence|]; injection W2 as <-; apply W3; exact L. }
  split; [|split].
  - rewrite OK. split.
    + intros [_ WK]. split; auto. intros [k col] HI. cbn. assert (X := WK k (DVal (cell_value A col))). cbn in X. apply X. apply as_dict_In. eauto.
    + intros [_ TP]. split; [lia|]. intros k e HI. apply as_dict_In in HI. destruct HI as (col & HI & ->). split; [exact (TP _ HI)|]. apply NW. exact (HC _ HI).
  - intros e. unfold gs_from_dict. destruct (gs_new (Z.of_nat n)) as [s|e0] eqn:EN.
    2:{ unfold gs_new in EN. destruct (Z.of_nat n <? 1)%Z; [|discriminate]. injection EN as <-. cbn. intros X; now injection X. }
    cbn [bind]. assert (SN : wf s) by (unfold gs_new in EN; destruct (Z.of_nat n <? 1)%Z; [discriminate|]; injection EN as <-; rewrite Nat2Z.id; now apply wf_fresh).
    clear - SN. revert s SN. induction t as [|[k col] t IH]; intros s SN; cbn [as_dict map fold_res]; [discriminate|]. cbn [fst snd].
    destruct (from_dict_step s (k, DVal (cell_value A col))) as [s'|e0] eqn:E; cbn [bind].
    + apply IH. unfold from_dict_step in E. cbn [fst snd] in E. destruct (has_dot k); [|discriminate].
      destruct (split_dot k) as [|a [|b [|]]]; try discriminate. destruct (gs_set s a b (cell_value A col) false) as [s2 [e1|]] eqn:ES; [discriminate|].
      injection E as <-. now destruct (set_spec _ _ _ _ _ _ _ SN ES).
    + intros X. injection X as <-. unfold from_dict_step in E. cbn [fst snd] in E. destruct (has_dot k); [|congruence].
      destruct (split_dot k) as [|a [|b [|]]]; try congruence. destruct (gs_set s a b (cell_value A col) false) as [s2 [e1|]] eqn:ES; [|discriminate]. injection E as <-.
      destruct (set_spec _ _ _ _ _ _ _ SN ES) as (_ & _ & [V|V] & _); congruence.
  - intros r HR. destruct (VAL r HR) as [N1 RD]. split; auto. intros node var w. rewrite RD. unfold told. split.
    + intros (v & [[d [G _]]|G] & EX); [apply as_dict_In in G; destruct G as (? & _ & X); discriminate|].
      apply as_dict_In in G. destruct G as (col & HI & X). injection X as ->. exists col. split; auto. assert (L : length col = n) by (exact (HC _ HI)).
      destruct EX as [[E1 ->]|[E1 [(a & E2 & _)|(l & E2 & E3 & ->)]]].
      * rewrite E1 in L. destruct col as [|v [|]]; cbn in L; try lia. now left.
      * destruct col as [|v [|]]; cbn in *; try discriminate; lia.
      * right. destruct col as [|v [|]]; cbn in *; auto; lia.
    + intros (col & HI & HW). assert (L : length col = n) by (exact (HC _ HI)). exists (cell_value A col). split; [right; apply as_dict_In; eauto|].
      destruct HW as [->|[H1 ->]].
      * left. cbn in L. auto.
      * right. split; [congruence|]. right. exists col. destruct col as [|v [|]]; cbn in *; auto; lia.
Qed.
(** A one-row table with the values of a one-sample state gives the state back. *)
Theorem C07_one_row : forall A (s : gs A) (t : table A), reachable s -> gs_n s = 1 -> NoDup (map fst t) -> t <> [] ->
  (forall k col, In (k, col) t <-> exists node var v, reads s node var v /\ k = full_name node var /\ col = [v]) ->
  exists r, gs_from_table t = Ok r /\ gs_n r = 1 /\ forall node var v, reads r node var v <-> reads s node var v.
Proof.
  intros A s t R HN ND NE HT. assert (W := reachable_wf _ R).
  assert (PT : proper_table 1 t). { split; auto. intros [k col] HI. apply HT in HI. destruct HI as (? & ? & ? & _ & _ & ->). reflexivity. }
  assert (DOT : forall node var v, reads s node var v -> has_dot node = false /\ has_dot var = false).
  { intros node var v HR. unfold reads in HR. apply reads_look in HR; [|now apply wf_wk]. exact (look_nodot _ _ _ _ (wf_wk _ W) HR). }
  destruct (C07_from_table A 1 t PT NE) as (OK & _ & VAL). destruct OK as [_ OK]. destruct OK as [r HR].
  { split; auto. intros [k col] HI. apply HT in HI. destruct HI as (node & var & v & HV & -> & _). exists node, var. destruct (DOT _ _ _ HV). auto. }
  exists r. split; auto. destruct (VAL r HR) as [N1 RD]. split; auto. intros node var v. rewrite RD. unfold told. split.
  - intros (col & HI & HW). apply HT in HI. destruct HI as (node' & var' & v' & HV & EK & ->). destruct HW as [HW|[HW _]]; [|cbn in HW; lia].
    injection HW as ->. destruct (DOT _ _ _ HV) as [D1 D2].
    apply full_name_nodot in EK; auto. destruct EK; subst; auto.
  - intros HV. exists [v]. split; [apply HT; eauto 6|now left].
Qed.
Example C07_from_table_case : let t := [("a.x", [Atom 1; Atom 2]); ("b.x", [Atom 5; Atom 6])]%Z in
  proper_table 2 t /\ exists r, gs_from_table t = Ok r /\ reads r "b" "x" (Arr [Atom 5; Atom 6]%Z).
Proof.
  cbv zeta. split; [split; [repeat constructor; cbn; intuition discriminate|intros c [<-|[<-|[]]]; reflexivity]|]. eexists. split; [reflexivity|]. reflexivity.
Qed.
Example C07_one_row_case : exists r, gs_from_table [("a.x", [Atom 1%Z]); ("b.x", [Arr [Atom 5; Atom 6]%Z])] = Ok r /\ gs_n r = 1 /\ reads r "b" "x" (Arr [Atom 5; Atom 6]%Z) /\ reads r "a" "x" (Atom 1%Z).
Proof. eexists. split; [reflexivity|]. repeat split; reflexivity. Qed.
