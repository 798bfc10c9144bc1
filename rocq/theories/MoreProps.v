(** Theorems added after edits of the model had gone unnoticed (see seeded/LOG.jsonl): C26, C28,
    C61. *)
From Coq Require Import String Ascii List Bool Arith ZArith QArith Lia.
From Verif Require Import Base BaseFacts GraphStateModel GraphStateProofs GraphStateProofs4 GraphStateProps
  NodeGraphModel SamplerModel MathNodeModel MathNodeProps.
Import ListNotations.
Open Scope string_scope.
Open Scope list_scope.
Open Scope nat_scope.

(** ** C26: which samplers can be made *)
(** A search radius larger than 0, at least one row in the table and at least one iteration. *)
Theorem C26_make : forall radius rows iters k,
  rej_make radius rows iters = Ok k <->
  exists r, radius = Some r /\ (0 < r)%Q /\ 0 < rows /\ (0 < iters)%Z /\ Z.of_nat k = iters.
Proof.
  intros radius rows iters k. unfold rej_make. destruct radius as [r|].
  2:{ split; [discriminate|]. intros (r & H & _). discriminate. }
  destruct (Qle_bool r 0) eqn:E1.
  { apply Qle_bool_iff in E1. split; [discriminate|]. intros (r' & H & H1 & _). inversion H; subst.
    exfalso. apply (Qlt_not_le _ _ H1). auto. }
  assert (P : (0 < r)%Q). { apply Qnot_le_lt. intros X. apply Qle_bool_iff in X. congruence. }
  destruct (rows =? 0) eqn:E2.
  { apply Nat.eqb_eq in E2. split; [discriminate|]. intros (r' & _ & _ & H & _). lia. }
  apply Nat.eqb_neq in E2. destruct (iters <=? 0)%Z eqn:E3.
  { apply Z.leb_le in E3. split; [discriminate|]. intros (r' & _ & _ & _ & H & _). lia. }
  apply Z.leb_gt in E3. split.
  - intros H. inversion H; subst. exists r. repeat split; auto; lia.
  - intros (r' & _ & _ & _ & _ & H). f_equal. lia.
Qed.
Example C26_make_applies : rej_make (Some (7 # 4)%Q) 10 100 = Ok 100 /\ rej_make (Some 0%Q) 10 100 = Err ValueError.
Proof. split; reflexivity. Qed.

(** ** C28: the library names in the three backends *)
Definition in_numpy (m id : string) : string := (m ++ "." ++ (if String.eqb id "pow" then "power" else id))%string.
Definition in_math (id : string) : string :=
  if smem id ["abs"; "max"; "min"] then id
  else ("math." ++ (if String.eqb id "deg2rad" then "radians" else if String.eqb id "rad2deg" then "degrees"
                    else if String.eqb id "power" then "pow" else id))%string.
(** The listed names, and what each of them is replaced by. *)
Theorem C28_library : forall id, dget id math_map =
  if smem id ["abs"; "acos"; "acosh"; "asin"; "asinh"; "atan"; "atan2"; "cos"; "cosh"; "ceil"; "degrees"; "deg2rad"; "e";
              "exp"; "fabs"; "floor"; "log"; "log10"; "log2"; "max"; "min"; "pi"; "pow"; "power"; "radians"; "rad2deg";
              "sin"; "sinh"; "sqrt"; "tan"; "tanh"; "trunc"]
  then Some (in_math id, in_numpy "np" id, in_numpy "jnp" id) else None.
Proof.
  intros id. unfold math_map. cbn [dget smem existsb].
  repeat match goal with |- context [String.eqb id ?s] =>
    let E := fresh in destruct (String.eqb id s) eqn:E;
      [apply String.eqb_eq in E; subst id; reflexivity|cbn [orb]]
  end.
  reflexivity.
Qed.
Theorem C28_targets : forall b id t, dget id math_map = Some t ->
  target b t = match b with BMath => in_math id | BNumpy => in_numpy "np" id | BJax => in_numpy "jnp" id end.
Proof.
  intros b id t H. rewrite C28_library in H. destruct (smem id _); [|discriminate]. inversion H; subst.
  destruct b; reflexivity.
Qed.

(** ** C61: reading one parameter of a node *)
(** The stored value, or the default if the node has no such parameter or is unknown (provided the
    node's name is not taken for a parameter of the only node of the state). *)
Theorem C61_get_param : forall A (g : gs A) (node name : string) (default : value A),
  reachable g -> has_dot node = false ->
  (forall v, reads g node name v -> get_param g node name default = Ok v) /\
  ((forall v, ~ reads g node name v) -> (forall v, gs_getitem g node <> Ok (IVal v)) ->
     get_param g node name default = Ok default).
Proof.
  intros A g node name default R ND. assert (W := wf_wk _ (reachable_wf _ R)). split.
  - intros v H. unfold reads in H. apply reads_look in H; auto. unfold look in H.
    destruct (dget node (gs_states g)) as [d|] eqn:E; [|discriminate].
    unfold get_param, gs_contains, gs_getitem, dmem. rewrite E, H. reflexivity.
  - intros HN HD. unfold gs_getitem in HD.
    unfold get_param, gs_contains, gs_getitem, dmem.
    destruct (dget node (gs_states g)) as [d'|] eqn:E.
    + destruct (dget name d') as [v|] eqn:EV; [|reflexivity]. exfalso. apply (HN v).
      unfold reads. apply reads_look; auto. unfold look. now rewrite E.
    + rewrite ND in *. destruct (gs_states g) as [|[k d0] [|]]; try reflexivity.
      destruct (dget node d0) as [v|]; [|reflexivity]. exfalso. now apply (HD v).
Qed.
Example C61_get_param_applies : get_param ex_state "b" "x" (Atom 0%Z) = Ok (Arr [Atom 7; Atom 8; Atom 9]%Z) /\
  get_param ex_state "b" "q" (Atom 0%Z) = Ok (Atom 0%Z) /\ get_param ex_state "c" "x" (Atom 0%Z) = Ok (Atom 0%Z).
Proof. repeat split. Qed.
(** A finding: with a single node, a node name that is also one of its parameters raises. *)
Theorem C61_get_param_default_refuted : exists (g : gs Z), reachable g /\
  (forall d, gs_getitem g "x" <> Ok (INode d)) /\ get_param g "x" "y" (Atom 0%Z) = Err TypeError.
Proof.
  exists (run (gs_fresh 1) [OSet "a" "x" (Atom 5%Z) false]). split; [exists 1, [OSet "a" "x" (Atom 5%Z) false]; split; [lia|reflexivity]|].
  split; [intros d; discriminate|reflexivity].
Qed.
Print Assumptions C26_make.
Print Assumptions C28_library.
Print Assumptions C28_targets.
Print Assumptions C61_get_param.
Print Assumptions C61_get_param_default_refuted.
