(** Property C28: BasicMathNode evaluates only whitelisted expressions, with their intended meaning. *)
From Coq Require Import String List Bool Arith Lia Permutation.
From Verif Require Import Base BaseFacts MathNodeModel.
Import ListNotations.
Open Scope string_scope.
Open Scope list_scope.
Open Scope nat_scope.

(** ** The specification: the language of allowed expressions, as a grammar. *)
Inductive arith_op : binop -> Prop :=
| ao_add : arith_op Add | ao_sub : arith_op Sub | ao_mul : arith_op Mult | ao_div : arith_op Div
| ao_fdiv : arith_op FloorDiv | ao_mod : arith_op Mod | ao_pow : arith_op Pow.
Inductive sign_op : unop -> Prop := so_pos : sign_op UAdd | so_neg : sign_op USub | so_inv : sign_op Invert.

Section Spec.
Variable params : list string.     (* the node's parameters *)
Variable library : list string.    (* the listed math functions and constants *)
Inductive allowed : expr -> Prop :=
| al_const : forall c, allowed (Const c)
| al_param : forall x, In x params -> allowed (Name x)
| al_lib : forall f, In f library -> allowed (Name f)
| al_bin : forall op l r, arith_op op -> allowed l -> allowed r -> allowed (BinOp op l r)
| al_un : forall op e, sign_op op -> allowed e -> allowed (UnaryOp op e)
| al_call : forall f args, In f library -> (forall x, In x args -> allowed x) -> allowed (Call (Name f) args).
Definition allowed_stmt (s : stmt) : Prop := match s with SExpr e => allowed e | SOther _ _ => False end.
End Spec.

(** ** The walk visits every node exactly once. *)
Fixpoint enodes (e : expr) : list anode :=
  NExpr e ::
  match e with
  | Const _ => []
  | Name _ => [NLoad]
  | BinOp op l r => enodes l ++ NBin op :: enodes r
  | UnaryOp op x => NUn op :: enodes x
  | Call f args => enodes f ++ flat_map enodes args
  | Other _ cs => flat_map enodes cs
  end.
Definition snodes (s : stmt) : list anode :=
  NStmt s :: match s with SExpr e => enodes e | SOther _ cs => flat_map enodes cs end.
Definition nnodes (n : anode) : list anode :=
  match n with
  | NModule m => NModule m :: flat_map snodes m
  | NStmt s => snodes s | NExpr e => enodes e
  | NBin op => [NBin op] | NUn op => [NUn op] | NLoad => [NLoad]
  end.

Lemma nnodes_eq : forall n, nnodes n = n :: flat_map nnodes (children n).
Proof.
  assert (M : forall cs, flat_map enodes cs = flat_map nnodes (map NExpr cs)).
  { induction cs; simpl; congruence. }
  intros [m|[e|k cs]|[c|id|op l r|op e|f args|k cs]|op|op|]; unfold nnodes, snodes; simpl; fold nnodes; try reflexivity.
  - f_equal. induction m; simpl; congruence.
  - now rewrite app_nil_r.
  - now rewrite M.
  - now rewrite app_nil_r.
  - now rewrite app_nil_r.
  - now rewrite M.
  - now rewrite M.
Qed.
Lemma fold_len : forall A (f : A -> list anode) (g : A -> nat) l, (forall x, In x l -> length (f x) = g x) ->
  length (flat_map f l) = fold_right (fun x n => g x + n) 0 l.
Proof. induction l; simpl; intros; auto. rewrite app_length, H, IHl; auto. Qed.
Lemma enodes_size : forall n e, esize e <= n -> length (enodes e) = esize e.
Proof.
  assert (L : forall l x, In x l -> esize x <= fold_right (fun x n => esize x + n) 0 l).
  { induction l; simpl; intros x []; subst; [lia|]. specialize (IHl _ H). lia. }
  assert (P : forall e, 1 <= esize e) by (destruct e; simpl; lia).
  induction n; intros e H; [specialize (P e); lia|]. destruct e; simpl in *; auto.
  - rewrite app_length. simpl. rewrite !IHn by lia. lia.
  - rewrite IHn by lia. lia.
  - rewrite app_length, IHn by lia. f_equal. f_equal. apply fold_len. intros x Hx. apply IHn. specialize (L _ _ Hx). lia.
  - f_equal. apply fold_len. intros x Hx. apply IHn. specialize (L _ _ Hx). lia.
Qed.
Lemma nnodes_size : forall n, length (nnodes n) = nsize n.
Proof.
  assert (E : forall l, length (flat_map enodes l) = fold_right (fun x n => esize x + n) 0 l).
  { intros l. apply fold_len. intros. eapply enodes_size; eauto. }
  assert (S0 : forall s, length (snodes s) = ssize s).
  { intros [e|k cs]; simpl; [|now rewrite E]. f_equal. eapply enodes_size; eauto. }
  intros [m|s|e|op|op|]; cbn [nnodes nsize]; auto.
  - simpl. f_equal. apply fold_len. auto.
  - eapply enodes_size; eauto.
Qed.
Lemma qsize_nodes : forall q, length (flat_map nnodes q) = qsize q.
Proof. intros q. apply fold_len. intros. apply nnodes_size. Qed.
Lemma walk_perm : forall fuel q, qsize q <= fuel -> Permutation (walk fuel q) (flat_map nnodes q).
Proof.
  induction fuel; intros q H.
  - destruct q as [|n q]; simpl; auto. exfalso. simpl in H. destruct n as [m|[e|k cs]|e|op|op|]; simpl in H; try lia.
    destruct e; simpl in H; lia.
  - destruct q as [|n q]; simpl; auto. rewrite nnodes_eq. simpl. constructor.
    rewrite IHfuel.
    + rewrite flat_map_app. apply Permutation_app_comm.
    + rewrite <- qsize_nodes in *. rewrite flat_map_app, app_length. cbn [flat_map] in H.
      rewrite nnodes_eq, app_length in H. simpl in H. lia.
Qed.

Lemma first_error_None : forall ps l, first_error ps l = None <-> forall n, In n l -> check ps n = None.
Proof.
  induction l as [|x l IH]; simpl; [split; auto; intros _ n []|].
  destruct (check ps x) eqn:E; split; intros H; try discriminate.
  - rewrite (H x) in E by auto. discriminate.
  - intros n [->|Hn]; auto. now apply IH.
  - apply IH. auto.
Qed.
Lemma first_error_In : forall ps l e, first_error ps l = Some e -> exists n, In n l /\ check ps n = Some e.
Proof.
  induction l as [|x l IH]; simpl; intros e H; [discriminate|]. destruct (check ps x) eqn:E.
  - inversion H; subst. eauto.
  - destruct (IH _ H) as (n & H1 & H2). eauto.
Qed.

Definition library : list string := dkeys math_map.
Lemma lib_mem : forall id, dmem id math_map = true <-> In id library.
Proof. intros. unfold library. apply dmem_true. Qed.

Lemma enodes_allowed : forall ps n e, esize e <= n ->
  ((forall x, In x (enodes e) -> check ps x = None) <-> allowed ps library e).
Proof.
  assert (L : forall l x, In x l -> esize x <= fold_right (fun x n => esize x + n) 0 l).
  { induction l; simpl; intros x []; subst; [lia|]. specialize (IHl _ H). lia. }
  assert (P : forall e, 1 <= esize e) by (destruct e; simpl; lia).
  intros ps. induction n; intros e HS; [specialize (P e); lia|].
  assert (HD : forall e, In (NExpr e) (enodes e)) by (destruct e0; simpl; auto).
  destruct e as [c|id|op l r|op e|f args|k cs]; simpl in HS; split; intros H.
  - constructor.
  - intros x [<-|[]]. reflexivity.
  - specialize (H _ (HD _)). unfold check in H; simpl in H. destruct (smem id ps) eqn:E1.
    + apply al_param. now apply smem_In.
    + destruct (dmem id math_map) eqn:E2; [|discriminate]. apply al_lib. now apply lib_mem.
  - intros x [<-|[<-|[]]]; [|reflexivity]. unfold check; simpl. inversion H; subst.
    + apply smem_In in H1. now rewrite H1.
    + apply lib_mem in H1. rewrite H1. now destruct (smem id ps).
  - constructor.
    + specialize (H (NBin op)). unfold check in H. simpl in H.
      assert (X : In (NBin op) (enodes (BinOp op l r))) by (simpl; right; apply in_or_app; right; left; auto).
      specialize (H X). destruct op; try discriminate; constructor.
    + apply IHn; [lia|]. intros x Hx. apply H. simpl. right. apply in_or_app. auto.
    + apply IHn; [lia|]. intros x Hx. apply H. simpl. right. apply in_or_app. right; right; auto.
  - inversion H as [| | |? ? ? O1 O2 O3| |]; subst. intros x [<-|Hx]; [reflexivity|]. apply in_app_or in Hx.
    destruct Hx as [Hx|[<-|Hx]].
    + revert x Hx. apply IHn; [lia|auto].
    + destruct O1; reflexivity.
    + revert x Hx. apply IHn; [lia|auto].
  - constructor.
    + assert (X : In (NUn op) (enodes (UnaryOp op e))) by (simpl; auto). specialize (H _ X).
      destruct op; try discriminate; constructor.
    + apply IHn; [lia|]. intros x Hx. apply H. simpl. auto.
  - inversion H as [| | | |? ? O1 O2|]; subst. intros x [<-|[<-|Hx]]; [reflexivity| |].
    + destruct O1; reflexivity.
    + revert x Hx. apply IHn; [lia|auto].
  - pose proof (H _ (HD _)) as H0. unfold check in H0; simpl in H0. destruct f; try discriminate.
    destruct (dmem id math_map) eqn:E; [|discriminate]. apply al_call; [now apply lib_mem|].
    intros x Hx. apply IHn; [specialize (L _ _ Hx); simpl in HS; lia|]. intros y Hy. apply H. simpl. right; right; right.
    apply in_flat_map. eauto.
  - inversion H as [| | | | |? ? O1 O2]; subst. apply lib_mem in O1. intros x [<-|Hx].
    + unfold check; simpl. now rewrite O1.
    + apply in_app_or in Hx. destruct Hx as [[<-|[<-|[]]]|Hx].
      * unfold check; simpl. rewrite O1. now destruct (smem f0 ps).
      * reflexivity.
      * apply in_flat_map in Hx. destruct Hx as (y & Y1 & Y2). revert x Y2. apply IHn; auto. specialize (L _ _ Y1). simpl in HS. lia.
  - specialize (H _ (HD _)). discriminate.
  - inversion H.
Qed.

(** ** C28 *)
(** The constructor accepts an expression exactly if it is in the grammar above. *)
Theorem C28_accepts_exactly_whitelist : forall b params m,
  (exists m', prepare b params m = Ok m') <-> Forall (allowed_stmt params library) m.
Proof.
  intros b ps m. unfold prepare.
  assert (W : forall n, In n (walk (nsize (NModule m)) [NModule m]) <-> n = NModule m \/ exists s, In s m /\ In n (snodes s)).
  { intros n. assert (PM := walk_perm (nsize (NModule m)) [NModule m]).
    assert (PM' : Permutation (walk (nsize (NModule m)) [NModule m]) (flat_map nnodes [NModule m])).
    { apply PM. simpl. lia. }
    split; intros H.
    - apply (Permutation_in _ PM') in H. simpl in H. rewrite app_nil_r in H. destruct H as [<-|H]; auto.
      right. now apply in_flat_map in H.
    - apply (Permutation_in _ (Permutation_sym PM')). simpl. rewrite app_nil_r. destruct H as [->|H]; auto.
      right. now apply in_flat_map. }
  assert (Q : first_error ps (walk (nsize (NModule m)) [NModule m]) = None <-> Forall (allowed_stmt ps library) m).
  { rewrite first_error_None. rewrite Forall_forall. split; intros H.
    - intros s Hs. assert (X : forall n, In n (snodes s) -> check ps n = None) by (intros; apply H, W; eauto).
      destruct s as [e|k cs]; simpl.
      + apply (enodes_allowed ps (esize e) e); auto. intros x Hx. apply X. simpl; auto.
      + specialize (X (NStmt (SOther k cs)) (or_introl eq_refl)). discriminate.
    - intros n Hn. apply W in Hn. destruct Hn as [->|(s & S1 & S2)]; [reflexivity|].
      specialize (H _ S1). destruct s as [e|k cs]; [|destruct H]. destruct S2 as [<-|S2]; [reflexivity|].
      revert n S2. apply (enodes_allowed ps (esize e) e); auto. }
  rewrite <- Q. destruct (first_error ps (walk (nsize (NModule m)) [NModule m])).
  - split; [intros (m' & H); discriminate|discriminate].
  - split; eauto.
Qed.
(** Rejection is ValueError, or AttributeError when the callee of some call is not a plain name. *)
Theorem C28_rejection : forall b params m e, prepare b params m = Err e -> e = ValueError \/ e = AttributeError.
Proof.
  intros b ps m e H. unfold prepare in H. destruct (first_error ps (walk (nsize (NModule m)) [NModule m])) eqn:E; inversion H; subst.
  apply first_error_In in E. destruct E as (n & _ & E). unfold check in E. destruct (supported n); [discriminate|].
  destruct n as [| |[]| | |]; try (inversion E; auto; fail).
  - destruct (smem id ps); [discriminate|]. destruct (dmem id math_map); inversion E; auto.
  - destruct f; try (inversion E; auto; fail). destruct (dmem id math_map); inversion E; auto.
Qed.
Theorem C28_backend_checked : forall s params m,
  s <> "jax" -> s <> "math" -> s <> "numpy" -> math_node s params m = Err ValueError.
Proof.
  intros s ps m H1 H2 H3. unfold math_node, backend_of.
  apply String.eqb_neq in H1, H2, H3. now rewrite H1, H2, H3.
Qed.

(** *** Meaning.  A name means the parameter of that name if there is one, else the
    library object of the chosen backend. *)
Section Meaning.
Context {V : Type}.
Variables (lit : string -> V) (attr : V -> string -> result V) (call : V -> list V -> result V)
  (bin : binop -> V -> V -> result V) (un : unop -> V -> result V) (other : string -> list V -> result V)
  (globals : string -> option V).
Definition module_name (b : backend) : string := match b with BMath => "math" | BNumpy => "np" | BJax => "jnp" end.

(** The library object behind a whitelisted name: an attribute of the backend's module, or (math's
    [abs], [max], [min]) a builtin. *)
Definition library_object (b : backend) (id : string) : result V :=
  match dget id math_map with
  | None => Err KeyError
  | Some t =>
      match split_dot (target b t) with
      | [m; f] => match globals m with Some o => attr o f | None => Err KeyError end
      | _ => match globals (target b t) with Some o => Ok o | None => Err KeyError end
      end
  end.
Definition intended (b : backend) (params : dict V) (id : string) : result V :=
  match dget id params with Some v => Ok v | None => library_object b id end.

Lemma map_no_dot_params : forall b id t, dget id math_map = Some t ->
  (exists f, target b t = (module_name b ++ String dot f)%string /\ split_dot (target b t) = [module_name b; f]) \/
  (split_dot (target b t) = [target b t] /\ target b t = id).
Proof.
  intros b id t H. apply dget_In in H. unfold math_map in H. simpl in H.
  repeat (destruct H as [H|H]; [inversion H; subst; destruct b; simpl;
    first [right; split; reflexivity|left; eexists; split; reflexivity]|]). destruct H.
Qed.

Lemma ev_rename : forall b params n e, esize e <= n ->
  dget (module_name b) params = None -> (forall x, In x (dkeys params) -> has_dot x = false) ->
  allowed (dkeys params) library e ->
  ev lit call bin un other (ev_name attr globals params) (rename b (dkeys params) e) =
  ev lit call bin un other (intended b params) e.
Proof.
  intros b ps n e HS HM HD. revert e HS.
  assert (NM : forall id, In id (dkeys ps) \/ In id library ->
     ev_name attr globals ps (rename_id b (dkeys ps) id) = intended b ps id).
  { intros id HI. unfold rename_id, intended. destruct (smem id (dkeys ps)) eqn:E.
    - apply smem_In in E. unfold ev_name. rewrite split_dot_nodot by auto.
      unfold lookup. apply dget_keys in E. destruct (dget id ps); congruence.
    - assert (N : dget id ps = None).
      { apply dget_None. now apply smem_false. }
      rewrite N. unfold library_object. destruct (dget id math_map) as [t|] eqn:ET.
      + destruct (map_no_dot_params b _ _ ET) as [(f & EF & ES)|[ES EQ]].
        * unfold ev_name. rewrite ES. unfold lookup. rewrite HM. destruct (globals (module_name b)); reflexivity.
        * unfold ev_name. rewrite ES. unfold lookup. rewrite EQ, N. reflexivity.
      + exfalso. destruct HI as [HI|HI]; [apply smem_In in HI; congruence|].
        apply lib_mem in HI. unfold dmem in HI. rewrite ET in HI. discriminate. }
  assert (L : forall l x, In x l -> esize x <= fold_right (fun x n => esize x + n) 0 l).
  { induction l; simpl; intros x []; subst; [lia|]. specialize (IHl _ H). lia. }
  assert (P : forall e, 1 <= esize e) by (destruct e; simpl; lia).
  induction n; intros e HS HA; [specialize (P e); lia|].
  destruct HA as [c|x Hx|f Hf|op l r O1 O2 O3|op e O1 O2|f args O1 O2]; simpl in HS; simpl.
  - reflexivity.
  - apply NM; auto.
  - apply NM; auto.
  - rewrite !IHn by (auto; lia). reflexivity.
  - rewrite !IHn by (auto; lia). reflexivity.
  - rewrite NM by auto. destruct (intended b ps f) as [g|]; auto. cbn [bind]. f_equal.
    assert (HL : forall x, In x args -> esize x <= n).
    { intros x Hx. specialize (L _ _ Hx). lia. }
    clear HS. induction args as [|a args IHa]; auto. cbn [map]. rewrite IHn; [|apply HL; left; auto|apply O2; left; auto].
    rewrite IHa; [reflexivity| |].
    + intros x Hx. apply O2. right; auto.
    + intros x Hx. apply HL. right; auto.
Qed.

(** The evaluated result of an accepted expression is its intended meaning, unless a
    parameter has the name of the backend's module. *)
Theorem C28_meaning : forall b params e m',
  prepare b (dkeys params) [SExpr e] = Ok m' ->
  ~ In (module_name b) (dkeys params) -> (forall x, In x (dkeys params) -> has_dot x = false) ->
  node_eval lit attr call bin un other globals params m' = ev lit call bin un other (intended b params) e.
Proof.
  intros b ps e m' H HM HD.
  assert (HA : Forall (allowed_stmt (dkeys ps) library) [SExpr e]) by (apply (C28_accepts_exactly_whitelist b); eauto).
  inversion HA; subst. unfold prepare in H. destruct (first_error _ _); inversion H; subst.
  simpl. eapply ev_rename; eauto. now apply dget_None.
Qed.
End Meaning.
(** A parameter called like the module captures the translated names: with a parameter [np]
    the call [sin(np)] evaluates [np.sin] as an attribute of the parameter. *)
Theorem C28_module_name_capture_refuted : exists (params : dict nat) e m',
  prepare BNumpy (dkeys params) [SExpr e] = Ok m' /\
  let attr := fun o f => if o =? 100 then Ok 200 else Err AttributeError in
  let call := fun f args => Ok 7 in
  let globals := fun g => if String.eqb g "np" then Some 100 else None in
  node_eval (fun _ => 0) attr call (fun _ _ _ => Ok 0) (fun _ _ => Ok 0) (fun _ _ => Ok 0) globals params m'
    = Err AttributeError /\
  ev (fun _ => 0) call (fun _ _ _ => Ok 0) (fun _ _ => Ok 0) (fun _ _ => Ok 0) (intended attr globals BNumpy params) e = Ok 7.
Proof.
  exists [("np", 5)], (Call (Name "sin") [Name "np"]). eexists. split; [reflexivity|]. split; reflexivity.
Qed.
(** A module of several expressions is accepted by the constructor but is no expression
    for [eval]: every evaluation raises. *)
Theorem C28_accepted_always_evaluable_refuted : exists m m',
  prepare BNumpy ["x"] m = Ok m' /\
  forall V lit attr call bin un other globals (params : dict V),
    node_eval lit attr call bin un other globals params m' = Err ValueError.
Proof. exists [SExpr (Name "x"); SExpr (Name "x")]. eexists. split; [reflexivity|]. reflexivity. Qed.
(** Concrete: [a + 10.0 * sin(phase)] is accepted and translated; attribute access, subscripts, unknown
    names, other functions, comparisons and keyword arguments are rejected. *)
Example C28_applies :
  prepare BNumpy ["a"; "phase"] [SExpr (BinOp Add (Name "a") (BinOp Mult (Const "10.0") (Call (Name "sin") [Name "phase"])))]
    = Ok [SExpr (BinOp Add (Name "a") (BinOp Mult (Const "10.0") (Call (Name "np.sin") [Name "phase"])))] /\
  prepare BNumpy ["a"] [SExpr (Other "Attribute" [Name "a"])] = Err ValueError /\
  prepare BNumpy ["a"] [SExpr (Call (Other "Attribute" [Name "a"]) [])] = Err AttributeError /\
  prepare BNumpy ["a"] [SExpr (Call (Name "eval") [Name "a"])] = Err ValueError /\
  prepare BNumpy ["a"] [SExpr (Call (Name "sin") [Other "keyword" [Name "a"]])] = Err ValueError /\
  prepare BNumpy ["a"] [SExpr (Name "b")] = Err ValueError /\
  prepare BNumpy ["a"] [SOther "Import" []] = Err ValueError.
Proof. repeat split. Qed.
Print Assumptions C28_accepts_exactly_whitelist.
Print Assumptions C28_meaning.
