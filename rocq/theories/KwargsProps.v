(** C118: keyword arguments as values of parameters (src/lightcurvelynx/base_models.py 356-520). *)
From Coq Require Import Reals String Ascii List Bool Arith ZArith Lia Relations.
From Verif Require Import Base BaseFacts ScipyModel SniaModel GraphStateModel GraphStateProofs GraphStateProofs2 GraphStateProofs4 GraphStateProps
  NodeGraphModel NodeGraphProofs NodeSampleProofs NodeSampleProofs2 NodeGraphProps NodeParamProps SniaSourceModel SniaSourceRun SniaSourceProps CosmoModel CosmoProps KwargsModel.
Import ListNotations.
Open Scope string_scope.
Open Scope list_scope.
Open Scope nat_scope.

(** ** Specification *)
(** The value for parameter [name]: the one given; else the keyword of that name; else None. *)
Inductive chosen {A} (none : value A) (name : string) (given : option (pyval A)) (kw : list (string * pyval A)) : pyval A -> Prop :=
| chosen_given : forall v, given = Some v -> chosen none name given kw v
| chosen_keyword : forall v, given = None -> In (name, v) kw -> chosen none name given kw v
| chosen_none : given = None -> ~ In name (map fst kw) -> chosen none name given kw (PConst none).
(** The function node a plain function is wrapped in: labelled like the model, with all keywords as arguments. *)
Definition call_node {A} (label : option string) (f : string) (es : dict (setter A)) : node A :=
  renamed (mkNode label "FunctionNode" true (Some f) (es ++ [(res, as_compute_output undefined res)]) None "" (map fst es) [res] []).

Section P.
Context {A : Type} (none : value A).
Lemma resolve_chosen : forall name given kw, chosen none name given (kw_vals kw) (resolve none name given kw).
Proof.
  intros name given kw. unfold resolve. destruct given as [v|]; [now apply chosen_given|].
  destruct (dget name (kw_vals kw)) as [v|] eqn:E.
  - apply chosen_keyword; auto. now apply dget_In.
  - apply chosen_none; auto. now apply dget_None.
Qed.
Lemma chosen_resolve : forall name given kw v, NoDup (map fst (kw_vals kw)) -> chosen none name given (kw_vals kw) v -> resolve none name given kw = v.
Proof.
  intros name given kw v ND C. unfold resolve. destruct C as [v E|v E HI|E NI]; subst given; auto.
  - now rewrite (In_dget _ _ _ _ ND HI).
  - now rewrite (proj2 (dget_None _ _ _) NI).
Qed.
Lemma wrap_kw_ext : forall kw, wrap_ok (wrap_kw none kw).
Proof. intros kw h f h' j r H. unfold wrap_kw, fn_new in H. apply fn_new_extends in H; [tauto|apply wrap0_ok]. Qed.
Lemma wrap_kw_index : forall kw h f h' j r, wrap_kw none kw h f = (h', j, r) -> j = length h.
Proof. intros kw h f h' j r H. unfold wrap_kw, fn_new in H. apply fn_new_extends in H; [tauto|apply wrap0_ok]. Qed.

(** [set_parameter]: the recipe of the parameter becomes the one of the chosen value, the other recipes and nodes stay; if it fails, all recipes
    stay. *)
Theorem C118_set : forall (h : nheap A) i n name given kw old h' r,
  nth_error h i = Some n -> dget name (nd_setters n) = Some old -> set_parameter_kw none h i name given kw = (h', r) ->
  exists v, chosen none name given (kw_vals kw) v /\
  (forall k, k < length h -> k <> i -> nth_error h' k = nth_error h k) /\
  match r with
  | None => exists s d, expected h i name v = Ok s /\ params h' i = Some d /\ map fst d = map fst (nd_setters n) /\
      dget name d = Some s /\ (forall x, x <> name -> dget x d = dget x (nd_setters n))
  | Some e => (expected h i name v = Err e \/ exists f, v = PCall f) /\ params h' i = Some (nd_setters n)
  end.
Proof.
  intros h i n name given kw old h' r EN ED H. exists (resolve none name given kw). split; [apply resolve_chosen|].
  destruct (set_parameter_spec _ h i n name _ h' r old (wrap_kw_ext kw) (wrap_kw_index kw) EN ED H) as [[_ O] S]. split; auto.
  destruct r as [e|]; auto. destruct S as (s & n' & S1 & S2 & S3 & _). exists s, (nd_setters n').
  split; auto. split; [unfold params; now rewrite S2|]. rewrite S3. split; [|split].
  - assert (K : In name (map fst (nd_setters n))) by (apply dget_In in ED; apply in_map_iff; exists (name, old); auto).
    clear -K. induction (nd_setters n) as [|[k x] d IH]; simpl in *; [tauto|]. destruct (String.eqb name k) eqn:E; simpl; auto.
    f_equal. apply IH. destruct K; auto. subst. rewrite String.eqb_refl in E. discriminate.
  - now rewrite dget_dset, String.eqb_refl.
  - intros x NE. rewrite dget_dset. apply String.eqb_neq in NE. now rewrite NE.
Qed.
(** [add_parameter] of a new name: the parameter is appended with the recipe of the chosen value and the requested gradient flag. *)
Theorem C118_add : forall (h : nheap A) i n name given grad kw h',
  nth_error h i = Some n -> add_parameter_kw none h i name given grad kw = (h', None) ->
  exists v, chosen none name given (kw_vals kw) v /\
  dget name (nd_setters n) = None /\
  (forall k, k < length h -> k <> i -> nth_error h' k = nth_error h k) /\
  exists s, expected (put_setter h i name undefined) i name v = Ok s /\
    params h' i = Some (nd_setters n ++ [(name, match grad with
       | Some b => mkSet (st_type s) (st_dep s) (st_src s) (st_const s) b
       | None => s end)]).
Proof.
  intros h i n name given grad kw h' EN H. exists (resolve none name given kw). split; [apply resolve_chosen|]. unfold add_parameter_kw in H. set (v := resolve none name given kw) in *.
  assert (O := add_only _ _ _ _ _ _ _ _ (wrap_kw_ext kw) H). destruct O as [_ O].
  unfold add_parameter_with in H. rewrite EN in H.
  destruct (smem name (nd_attrs n) && negb (dmem name (nd_setters n))); [discriminate|].
  destruct (dmem name (nd_setters n)) eqn:EM; [discriminate|].
  assert (EDn : dget name (nd_setters n) = None) by (unfold dmem in EM; destruct (dget name (nd_setters n)); congruence).
  split; auto. split; auto.
  set (h1 := put_setter h i name undefined) in *.
  assert (E1 : nth_error h1 i = Some (with_setters n (dset name undefined (nd_setters n)))).
  { unfold h1, put_setter. rewrite EN. rewrite (nth_upd_some _ _ _ _ _ _ EN), Nat.eqb_refl. auto. }
  destruct (set_parameter_with _ h1 i name v) as [h2 [e|]] eqn:ES; [discriminate|].
  assert (ED1 : dget name (nd_setters (with_setters n (dset name undefined (nd_setters n)))) = Some (@undefined A))
    by (simpl; rewrite dget_dset, String.eqb_refl; auto).
  destruct (set_parameter_spec _ h1 i _ name v h2 None _ (wrap_kw_ext kw) (wrap_kw_index kw) E1 ED1 ES)
    as [_ (s & n2 & S1 & S2 & S3 & S4)]. simpl in S3.
  assert (DN : dset name s (dset name undefined (nd_setters n)) = nd_setters n ++ [(name, s)]).
  { clear -EDn. induction (nd_setters n) as [|[k x] d IH]; simpl in *; [now rewrite String.eqb_refl|].
    destruct (String.eqb name k) eqn:E; [discriminate|]. simpl. rewrite E. f_equal. auto. }
  rewrite DN in S3. exists s. split; auto.
  assert (DL : dget name (nd_setters n2) = Some s).
  { rewrite S3. clear -EDn. induction (nd_setters n) as [|[k x] d IH]; simpl in *; [now rewrite String.eqb_refl|].
    destruct (String.eqb name k); [discriminate|auto]. }
  destruct grad as [b|].
  - rewrite S2, DL in H. inversion H; subst. unfold params, put_setter. rewrite S2.
    rewrite (nth_upd_some _ _ _ _ _ _ S2), Nat.eqb_refl. simpl. f_equal. rewrite S3.
    clear -EDn. induction (nd_setters n) as [|[k x] d IH]; simpl in *; [now rewrite String.eqb_refl|].
    destruct (String.eqb name k); [discriminate|]. f_equal. auto.
  - inversion H; subst. unfold params. rewrite S2. simpl. now rewrite S3.
Qed.
(** Python names are unique: there is one chosen value. *)
Theorem C118_chosen_unique : forall name given (kw : list (string * pyval A)) v w, NoDup (map fst kw) ->
  chosen none name given kw v -> chosen none name given kw w -> v = w.
Proof.
  intros name given kw v w ND C D. rewrite <- (chosen_resolve name given (mkKw None kw) v ND C). now apply chosen_resolve.
Qed.
(** Unless the chosen value is a plain function, neither the other keywords nor the label matter, and no node is created. *)
Theorem C118_other_keywords_irrelevant : forall (h : nheap A) i name given grad kw kw' v,
  NoDup (map fst (kw_vals kw)) -> NoDup (map fst (kw_vals kw')) ->
  chosen none name given (kw_vals kw) v -> chosen none name given (kw_vals kw') v -> (forall f, v <> PCall f) ->
  add_parameter_kw none h i name given grad kw = add_parameter_kw none h i name given grad kw' /\
  set_parameter_kw none h i name given kw = set_parameter_kw none h i name given kw' /\
  length (fst (add_parameter_kw none h i name given grad kw)) = length h /\
  length (fst (set_parameter_kw none h i name given kw)) = length h.
Proof.
  intros h i name given grad kw kw' v N1 N2 C1 C2 NF. unfold add_parameter_kw, set_parameter_kw.
  rewrite (chosen_resolve _ _ _ _ N1 C1), (chosen_resolve _ _ _ _ N2 C2).
  assert (LP : forall (h : nheap A) i name s, length (put_setter h i name s) = length h).
  { intros h1 i1 x s. unfold put_setter. destruct (nth_error h1 i1); auto. apply upd_length. }
  assert (S : forall h, set_parameter_with (wrap_kw none kw) h i name v = set_parameter_with (wrap_kw none kw') h i name v /\
    length (fst (set_parameter_with (wrap_kw none kw) h i name v)) = length h).
  { intros h0. unfold set_parameter_with. destruct (nth_error h0 i); auto. cbv zeta. destruct (dget name _); [|cbn; now rewrite upd_length].
    destruct v as [j m|f|j|c]; try (exfalso; eapply NF; reflexivity); split; auto;
      repeat match goal with |- context [match ?x with _ => _ end] => destruct x end; cbn; now rewrite ?LP, ?upd_length. }
  assert (E := S h). destruct E as [E1 E2]. split; [|split; [exact E1|split; [|exact E2]]]; unfold add_parameter_with; destruct (nth_error h i); auto;
    destruct (_ && _); auto; destruct (dmem _ _); auto; cbv zeta; destruct (S (put_setter h i name undefined)) as [S1 S2].
  - now rewrite S1.
  - rewrite LP in S2. revert S2. destruct (set_parameter_with (wrap_kw none kw) (put_setter h i name undefined) i name v) as [h2 [e|]]; intros S2; cbn in *; auto. destruct grad; auto. destruct (nth_error h2 i) as [n2|]; auto. destruct (dget name (nd_setters n2)); cbn; now rewrite ?LP.
Qed.

(** ** Wrapped functions *)
Lemma call_made : forall (h h0 : nheap A) label f args es, (exists u, h = h0 ++ u) -> NoDup (map fst args) -> ~ In res (map fst args) ->
  Forall2 (fun kv ks => fst kv = fst ks /\ source h0 (fst kv) (snd kv) = Some (snd ks)) args es ->
  fn_new none h f label args [] = (h ++ [call_node label f es], length h, None).
Proof.
  intros h h0 label f args es U ND NR F.
  assert (KEYS : map fst es = map fst args).
  { clear - F. induction F as [|[a b] [c d] l l' [X _] _ IH]; auto. cbn in *. congruence. }
  unfold fn_new, fn_new_with. cbv zeta. rewrite (args_at _ h0 h U args es); auto.
  cbn [fn_blank renamed with_str nd_label nd_class nd_fn nd_func nd_setters nd_pos nd_str nd_args nd_outs nd_attrs app].
  unfold set_outs. rewrite nth_mid, upd_mid. cbn [nd_label nd_class nd_fn nd_func nd_setters nd_pos nd_str nd_args nd_outs nd_attrs fn_add_outputs].
  assert (NE : ~ In res (dkeys es)) by (unfold dkeys; rewrite KEYS; auto).
  unfold fn_add_output. fold res. rewrite (add_old _ h h _ _ _ _ _ (as_constant none)); auto.
  2:{ exists []. now rewrite app_nil_r. }
  unfold with_setters; cbn [nd_label nd_class nd_fn nd_func nd_setters nd_pos nd_str nd_args nd_outs nd_attrs graded].
  rewrite nth_mid. cbn [nd_setters]. rewrite (dget_last _ _ _ _ NE), put_mid. cbn [nd_setters]. rewrite (dset_last _ _ _ _ _ NE).
  unfold with_setters; cbn [nd_label nd_class nd_fn nd_func nd_setters nd_pos nd_str nd_args nd_outs nd_attrs]. reflexivity.
Qed.

(** If the chosen value is a plain function [f] — given or a keyword of another name — and the keywords are constants, values of other nodes
    or nodes, one node is created: it calls [f] with all keywords as arguments, and has the label of the model. *)
Theorem C118_function_gets_all_keywords : forall (h : nheap A) n name given grad kw f es,
  nd_attrs n = [] -> nd_pos n = None -> ~ In name (map fst (nd_setters n)) ->
  resolve none name given kw = PCall f ->
  NoDup (map fst (kw_vals kw)) -> ~ In "function_node_result" (map fst (kw_vals kw)) ->
  Forall2 (fun kv ks => fst kv = fst ks /\ source h (fst kv) (snd kv) = Some (snd ks)) (kw_vals kw) es ->
  add_parameter_kw none (h ++ [n]) (length h) name given grad kw =
  (h ++ [with_setters n (nd_setters n ++ [(name, graded grad (as_function (S (length h)) "function_node_result"))]);
         call_node (kw_label kw) f es], None).
Proof.
  intros h n name given grad kw f es EA EP NI ER ND NR F. unfold add_parameter_kw. rewrite ER.
  unfold add_parameter_with. rewrite nth_mid, EA. cbn [smem existsb andb]. rewrite (proj2 (dmem_false _ _ _) NI).
  rewrite put_mid, (dset_new _ _ _ _ NI). cbv zeta.
  set (n1 := with_setters n (nd_setters n ++ [(name, undefined)])).
  unfold set_parameter_with. rewrite nth_mid. cbv zeta.
  assert (W : with_pos n1 None = n1). { unfold n1, with_pos, with_setters. cbn. rewrite EP. reflexivity. }
  rewrite W, upd_mid. assert (G : dget name (nd_setters n1) = Some undefined) by (apply dget_last; auto). rewrite G.
  unfold wrap_kw. rewrite (call_made (h ++ [n1]) h (kw_label kw) f (kw_vals kw) es); auto.
  2:{ now exists [n1]. }
  replace (length (h ++ [n1])) with (S (length h)) by (rewrite app_length; simpl; lia).
  rewrite <- app_assoc. cbn [app]. rewrite put_mid. change (nd_setters n1) with (nd_setters n ++ [(name, @undefined A)]).
  rewrite (dset_last _ _ _ _ _ NI). fold res.
  assert (E : with_setters n1 (nd_setters n ++ [(name, as_function (S (length h)) res)]) =
              with_setters n (nd_setters n ++ [(name, as_function (S (length h)) res)])) by reflexivity.
  rewrite E. destruct grad as [b|]; [|reflexivity]. rewrite nth_mid. cbn [nd_setters with_setters]. rewrite (dget_last _ _ _ _ NI).
  rewrite put_mid. cbn [nd_setters with_setters]. rewrite (dset_last _ _ _ _ _ NI). reflexivity.
Qed.
End P.

(** ** Runs *)
(** In the model [h], the parameter [name] of node [i] is the result of the function of node [j], whose arguments are called [names]. *)
Definition calls {A} (h : nheap A) (i : nat) (name : string) (j : nat) (names : list string) : Prop :=
  exists ni nj s, nth_error h i = Some ni /\ nth_error h j = Some nj /\ j <> i /\ In (name, s) (nd_setters ni) /\
    (st_type s = SModel \/ st_type s = SFunc) /\ st_dep s = Some j /\ st_src s = "function_node_result" /\
    nd_fn nj = true /\ nd_args nj = names /\ nd_outs nj = ["function_node_result"].
Lemma calls_reaches : forall A (h : nheap A) root i name j names, reaches h root i -> calls h i name j names -> reaches h root j.
Proof.
  intros A h root i name j names R (ni & nj & s & Ei & Ej & NE & I & T & D & _). eapply rt_trans; [exact R|]. apply rt_step.
  exists ni, name, s. auto.
Qed.
(** In every successful run the function was called with all keywords — the constant ones with their values, once per sample —, and its
    result is the value of the parameter. *)
Theorem C118_parameter_is_result : forall A W (func : W -> nat -> dict (value A) -> W * result (value A)) fuel h root g num w h' m i name j names,
  well_formed h -> valid_given g -> sample_parameters func fuel h root g num w = Ok (h', m) -> reaches h root i -> calls h i name j names ->
  exists ni nj args w1 w2 r, nth_error h' i = Some ni /\ nth_error h' j = Some nj /\
    func w1 j args = (w2, Ok r) /\ map fst args = names /\
    (forall k v, In (k, v) args -> reads (sm_gs m) (nd_str nj) k v) /\
    (forall k c v, In (k, as_constant c) (nd_setters nj) -> (~ exists u, given_value g (nd_str nj) k u) -> In (k, v) args ->
       v = if Z.eqb num 1 then c else GraphStateModel.Arr (repeat c (Z.to_nat num))) /\
    ((~ exists u, given_value g (nd_str ni) name u) -> (~ exists u, given_value g (nd_str nj) "function_node_result" u) ->
     exists u, expands (Z.to_nat num) r u /\ reads (sm_gs m) (nd_str ni) name u).
Proof.
  intros A W func fuel h root g num w h' m i name j names WF VG RUN RI CA.
  assert (RJ := calls_reaches _ _ _ _ _ _ _ RI CA). destruct CA as (ni & nj & s & Ei & Ej & NE & I & T & D & Q & FN & EA & EO).
  assert (ST := started _ _ _ _ _ _ _ _ _ _ _ RUN).
  destruct (recipe_at _ _ _ _ _ _ _ ST Ei) as (ni' & Ei' & (Si & _)). destruct (recipe_at _ _ _ _ _ _ _ ST Ej) as (nj' & Ej' & (Sj & _ & _ & Fj & _ & Aj & Oj)).
  destruct (WF _ _ Ej) as (_ & _ & WO). destruct (WO "function_node_result") as (so & O1 & O2); [rewrite EO; now left|].
  destruct (C22_run_consistent _ _ _ _ _ _ _ _ _ _ _ WF VG RUN j nj' RJ Ej') as (args & w1 & w2 & r & C1 & C2 & C3 & C4 & _).
  { now rewrite Fj. } { exists "function_node_result", so. rewrite Sj. auto. }
  exists ni', nj', args, w1, w2, r. split; auto. split; auto. split; auto. split; [congruence|]. split; auto. split.
  - intros k c v IS NG IA. destruct (C19_linked_agree _ _ _ _ _ _ _ _ _ _ _ WF VG RUN j nj' k _ RJ Ej' IS NG) as [_ (c' & X & RD)].
    injection X as <-. assert (Y := C3 _ _ IA). unfold reads in *. congruence.
  - intros N1 N2. rewrite <- Si in I.
    destruct (C19_linked_agree _ _ _ _ _ _ _ _ _ _ _ WF VG RUN i ni' name s RI Ei' I N1) as [_ L].
    assert (X : exists j d v, st_dep s = Some j /\ nth_error h' j = Some d /\ reads (sm_gs m) (nd_str ni') name v /\ reads (sm_gs m) (nd_str d) (st_src s) v)
      by (destruct T as [T|T]; rewrite T in L; exact L).
    destruct X as (j' & d & v & X1 & X2 & X3 & X4). assert (j' = j) by congruence. subst j'. assert (d = nj') by congruence. subst d. rewrite Q in X4.
    destruct (C4 "function_node_result") as (u & U1 & U2); [now rewrite Oj|exact N2|]. exists u. split; auto.
    unfold reads in *. congruence.
Qed.
(** A function that does not take (all of) the keywords: no run succeeds. *)
Theorem C118_narrow_function_refuted : forall A W (func : W -> nat -> dict (value A) -> W * result (value A)) fuel h root g num w i name j names,
  well_formed h -> valid_given g -> reaches h root i -> calls h i name j names ->
  (forall w args, map fst args = names -> exists e, snd (func w j args) = Err e) ->
  exists e, sample_parameters func fuel h root g num w = Err e.
Proof.
  intros A W func fuel h root g num w i name j names WF VG RI CA REJ.
  destruct (sample_parameters func fuel h root g num w) as [[h' m]|e] eqn:RUN; [|eauto]. exfalso.
  destruct (C118_parameter_is_result _ _ _ _ _ _ _ _ _ _ _ _ _ _ _ WF VG RUN RI CA) as (ni & nj & args & w1 & w2 & r & _ & _ & C & N & _).
  destruct (REJ w1 args N) as (e & E). rewrite C in E. discriminate.
Qed.
Lemma label_kept : forall A fuel (h : nheap A) root h' k n l, start_heap fuel h root = Ok h' -> nth_error h k = Some n ->
  nd_label n = Some l -> nd_str n = l -> exists n', nth_error h' k = Some n' /\ nd_str n' = l.
Proof.
  intros A fuel h root h' k n l H E L S. unfold start_heap in H. destruct (nth_error h root) as [r|]; [|discriminate]. destruct (nd_pos r).
  - injection H as <-. eauto.
  - destruct (positions fuel h [] root) as [[h2 seen]|] eqn:EP; [|discriminate]. injection H as <-.
    destruct (positions_root _ _ _ _ _ EP) as (ND & HR & HN & HH). assert (HK := HN k). destruct (idx k seen) as [p|].
    + rewrite E in HK. eexists. split; [exact HK|]. unfold renamed, node_string. cbn. now rewrite L.
    + rewrite E in HK. eauto.
Qed.
(** Two nodes with one label — a labelled model and the node its function was wrapped in —: no run succeeds. *)
Theorem C118_shared_label_refuted : forall A W (func : W -> nat -> dict (value A) -> W * result (value A)) fuel h root g num w i name j names ni nj l,
  well_formed h -> valid_given g -> reaches h root i -> calls h i name j names ->
  nth_error h i = Some ni -> nth_error h j = Some nj -> nd_label ni = Some l -> nd_str ni = l -> nd_label nj = Some l -> nd_str nj = l ->
  exists e, sample_parameters func fuel h root g num w = Err e.
Proof.
  intros A W func fuel h root g num w i name j names ni nj l WF VG RI CA Ei Ej L1 S1 L2 S2.
  destruct (start_heap fuel h root) as [h'|e] eqn:ST.
  - destruct (label_kept _ _ _ _ _ _ _ _ ST Ei L1 S1) as (ni' & Ei' & Si). destruct (label_kept _ _ _ _ _ _ _ _ ST Ej L2 S2) as (nj' & Ej' & Sj).
    assert (NE : i <> j) by (destruct CA as (? & ? & ? & _ & _ & X & _); auto).
    eapply (C21_duplicate_names_rejected A W func fuel h root g num w h' i j ni' nj'); eauto; [|congruence].
    eapply calls_reaches; eauto.
  - unfold sample_parameters. rewrite ST. eauto.
Qed.

(** ** A model class: ConstantSEDModel *)
(** Where the base parameters come from: the keyword, else None. *)
Definition base_recipe {A} (none : value A) (es : dict (setter A)) (k : string) : setter A :=
  match dget k es with Some s => s | None => as_constant none end.
Definition base_parameters {A} (none : value A) (es : dict (setter A)) : dict (setter A) :=
  map (fun k => (k, no_grad (base_recipe none es k))) ["ra"; "dec"; "redshift"] ++ [("t0", base_recipe none es "t0")] ++
  [("distance", no_grad (base_recipe none es "distance"))].
(** A constant source whose brightness is a function [f], without a cosmology: two nodes, and the function has all keywords of the model as
    arguments, also those that are parameters of the base class. *)
Definition constant_sed_nodes {A} (none : value A) (h : nheap A) (label : option string) (f : string) (es : dict (setter A)) : nheap A :=
  h ++ [model_node "ConstantSEDModel" label (base_parameters none es ++ [("brightness", as_function (S (length h)) "function_node_result")]);
        call_node label f es].
Lemma dget_sources : forall A (h : nheap A) vals es, Forall2 (fun kv ks => fst kv = fst ks /\ source h (fst kv) (snd kv) = Some (snd ks)) vals es ->
  forall k, match dget k vals with Some v => exists s, dget k es = Some s /\ source h k v = Some s | None => dget k es = None end.
Proof.
  intros A h vals es F k. induction F as [|[a v] [b s] l l' [E1 E2] F IH]; cbn; auto. cbn in E1, E2. subst b. destruct (String.eqb k a) eqn:E; auto.
  apply String.eqb_eq in E. subst a. eauto.
Qed.
Theorem C118_constant_sed_built : forall A (none : value A) label vals es (h : nheap A) f,
  NoDup (map fst vals) -> ~ In "function_node_result" (map fst vals) -> ~ In "cosmology" (map fst vals) ->
  Forall2 (fun kv ks => fst kv = fst ks /\ source h (fst kv) (snd kv) = Some (snd ks)) vals es ->
  constant_sed none (PCall f) (mkKw label vals) h = Ok (constant_sed_nodes none h label f es, length h).
Proof.
  intros A none label vals es h f ND NR NC F. unfold constant_sed, model_kw, physical_kw. cbn [kw_label kw_vals].
  assert (SRC : forall k, source h k (arg none (dget k vals)) = Some (base_recipe none es k)).
  { intros k. assert (X := dget_sources _ _ _ _ F k). unfold base_recipe. destruct (dget k vals) as [v|].
    - destruct X as (s & -> & X). exact X.
    - rewrite X. reflexivity. }
  rewrite (proj2 (dmem_false _ _ _) NC).
  assert (B := C109_built A none "ConstantSEDModel" label (dget "ra" vals) (dget "dec" vals) (dget "redshift" vals) (dget "t0" vals) (dget "distance" vals)
    false (filter (fun kv => negb (own_keyword (fst kv)) && negb (String.eqb (fst kv) "cosmology")) vals) h _ _ _ _ (SRC "ra") (SRC "dec") (SRC "redshift") (SRC "t0")).
  cbv zeta in B. cbn [andb] in B. assert (D := SRC "distance").
  match goal with |- bind ?x _ = _ => assert (E : x = Ok (h ++ [model_node "ConstantSEDModel" label (base_parameters none es)], length h)) end.
  { destruct (dget "distance" vals) as [d|].
    - rewrite (B _ D). reflexivity.
    - rewrite B. cbn [arg source] in D. injection D as D. unfold base_parameters. rewrite <- D. reflexivity. }
  rewrite E. cbn [bind add_own].
  rewrite (C118_function_gets_all_keywords none h _ "brightness" (Some (PCall f)) None (mkKw label vals) f es); auto.
  cbn. intros X. repeat destruct X as [X|X]; try discriminate X. exact X.
Qed.
Lemma constant_sed_wf : forall A (none : value A) h label f es, well_formed h -> NoDup (map fst es) -> ~ In res (map fst es) ->
  well_formed (constant_sed_nodes none h label f es).
Proof.
  intros A none h label f es WF ND NR k n E. unfold constant_sed_nodes in E. destruct (lt_dec k (length h)) as [L|L].
  - rewrite nth_error_app1 in E by auto. eapply WF; eauto.
  - rewrite nth_error_app2 in E by lia. destruct (k - length h) as [|[|q]] eqn:EK.
    + injection E as <-. cbn. split; [apply nodupb_ok; reflexivity|]. split; [constructor|intros o []].
    + injection E as <-. cbn. split; [|split].
      * rewrite map_app. cbn [map fst]. clear - ND NR. induction es as [|[a b] l IH]; cbn in *; [repeat constructor; auto|]. inversion ND; subst.
        constructor; [intros X; apply in_app_iff in X; destruct X as [X|[X|[]]]; auto|apply IH; auto].
      * repeat constructor. intros [].
      * intros o [<-|[]]. exists (as_compute_output undefined res). split; [|reflexivity]. apply in_app_iff. right. now left.
    + destruct q; discriminate.
Qed.
Lemma constant_sed_calls : forall A (none : value A) h label f es,
  calls (constant_sed_nodes none h label f es) (length h) "brightness" (S (length h)) (map fst es).
Proof.
  intros A none h label f es. unfold constant_sed_nodes. eexists. exists (call_node label f es), (as_function (S (length h)) "function_node_result").
  split; [apply nth_mid|]. split.
  { rewrite nth_error_app2 by lia. replace (S (length h) - length h) with 1 by lia. reflexivity. }
  split; [lia|]. split; [cbn; tauto|]. cbn. auto 10.
Qed.
(** With a label it is built, and then no sampling run of it succeeds: the two nodes have the same name. *)
Theorem C118_constant_sed_label_refuted : forall A (none : value A) l vals es (h : nheap A) f,
  NoDup (map fst vals) -> ~ In "function_node_result" (map fst vals) -> ~ In "cosmology" (map fst vals) -> well_formed h ->
  Forall2 (fun kv ks => fst kv = fst ks /\ source h (fst kv) (snd kv) = Some (snd ks)) vals es ->
  exists H, constant_sed none (PCall f) (mkKw (Some l) vals) h = Ok (H, length h) /\
    forall W (func : W -> nat -> dict (value A) -> W * result (value A)) fuel g num w, valid_given g ->
      exists e, sample_parameters func fuel H (length h) g num w = Err e.
Proof.
  intros A none l vals es h f ND NR NC WF F. exists (constant_sed_nodes none h (Some l) f es). split; [now apply C118_constant_sed_built|]. intros W func fuel g num w VG.
  assert (KEYS : map fst es = map fst vals).
  { clear - F. induction F as [|[a b] [c d] x y [X _] _ IH]; auto. cbn in *. congruence. }
  assert (CA := constant_sed_calls A none h (Some l) f es). assert (CB := CA). destruct CB as (ni & nj & s & Ei & Ej & _).
  eapply (C118_shared_label_refuted A W func fuel _ (length h) g num w (length h) "brightness" (S (length h)) (map fst es) ni nj l); auto.
  - apply constant_sed_wf; auto; now rewrite KEYS.
  - apply rt_refl.
  - unfold constant_sed_nodes in Ei. rewrite nth_mid in Ei. injection Ei as <-. reflexivity.
  - unfold constant_sed_nodes in Ei. rewrite nth_mid in Ei. injection Ei as <-. reflexivity.
  - unfold constant_sed_nodes in Ej. rewrite nth_error_app2 in Ej by lia. replace (S (length h) - length h) with 1 in Ej by lia. injection Ej as <-. reflexivity.
  - unfold constant_sed_nodes in Ej. rewrite nth_error_app2 in Ej by lia. replace (S (length h) - length h) with 1 in Ej by lia. injection Ej as <-. reflexivity.
Qed.
(** A function of no arguments can be the brightness of a model that has no keyword argument at all, and of no other model. *)
Theorem C118_constant_sed_plain_function : forall A (none : value A) vals es (h : nheap A) f W (func : W -> nat -> dict (value A) -> W * result (value A)),
  NoDup (map fst vals) -> ~ In "function_node_result" (map fst vals) -> ~ In "cosmology" (map fst vals) -> well_formed h ->
  Forall2 (fun kv ks => fst kv = fst ks /\ source h (fst kv) (snd kv) = Some (snd ks)) vals es -> vals <> [] ->
  (forall w k args, args <> [] -> snd (func w k args) = Err TypeError) ->
  exists H, constant_sed none (PCall f) (mkKw None vals) h = Ok (H, length h) /\
    forall fuel g num w, valid_given g -> exists e, sample_parameters func fuel H (length h) g num w = Err e.
Proof.
  intros A none vals es h f W func ND NR NC WF F NV REJ. exists (constant_sed_nodes none h None f es). split; [now apply C118_constant_sed_built|]. intros fuel g num w VG.
  assert (KEYS : map fst es = map fst vals).
  { clear - F. induction F as [|[a b] [c d] x y [X _] _ IH]; auto. cbn in *. congruence. }
  eapply (C118_narrow_function_refuted A W func fuel _ (length h) g num w (length h) "brightness" (S (length h)) (map fst es)); auto.
  - apply constant_sed_wf; auto; now rewrite KEYS.
  - apply rt_refl.
  - apply constant_sed_calls.
  - intros w0 args E. exists TypeError. apply REJ. intros ->. rewrite KEYS in E. destruct vals; [congruence|discriminate].
Qed.

(** ** Functions as keywords *)
Lemma wrap0_made : forall A (none : value A) h f, wrap0 none h f = (h ++ [call_node None f []], length h, None).
Proof.
  intros A none h f. unfold wrap0, fn_new_with. cbv zeta. cbn [fn_add_args].
  cbn [fn_blank renamed with_str nd_label nd_class nd_fn nd_func nd_setters nd_pos nd_str nd_args nd_outs nd_attrs app].
  unfold set_outs. rewrite nth_mid, upd_mid. cbn [nd_label nd_class nd_fn nd_func nd_setters nd_pos nd_str nd_args nd_outs nd_attrs fn_add_outputs].
  unfold fn_add_output. fold res. rewrite (add_old _ h h _ _ _ _ _ (as_constant none)); auto.
  2:{ exists []. now rewrite app_nil_r. }
  unfold with_setters; cbn [nd_label nd_class nd_fn nd_func nd_setters nd_pos nd_str nd_args nd_outs nd_attrs graded app].
  rewrite nth_mid. assert (NE : ~ In res (dkeys (nd_setters (fn_blank (A := A) f None)))) by (intros []).
  cbn [nd_setters]. rewrite (dget_last _ _ _ _ NE), put_mid. cbn [nd_setters]. rewrite (dset_last _ _ _ _ _ NE). reflexivity.
Qed.
Lemma add_call : forall A wrap (h : nheap A) n name f label es, nd_attrs n = [] -> nd_pos n = None -> ~ In name (map fst (nd_setters n)) ->
  (forall n1, wrap (h ++ [n1]) f = ((h ++ [n1]) ++ [call_node label f es], length (h ++ [n1]), None)) ->
  add_parameter_with wrap (h ++ [n]) (length h) name (PCall f) None =
  (h ++ [with_setters n (nd_setters n ++ [(name, as_function (S (length h)) res)]); call_node label f es], None).
Proof.
  intros A wrap h n name f label es EA EP NI WR. unfold add_parameter_with. rewrite nth_mid, EA. cbn [smem existsb andb]. rewrite (proj2 (dmem_false _ _ _) NI).
  rewrite put_mid, (dset_new _ _ _ _ NI). cbv zeta. set (n1 := with_setters n (nd_setters n ++ [(name, undefined)])).
  unfold set_parameter_with. rewrite nth_mid. cbv zeta.
  assert (W : with_pos n1 None = n1). { unfold n1, with_pos, with_setters. cbn. rewrite EP. reflexivity. }
  rewrite W, upd_mid. assert (G : dget name (nd_setters n1) = Some undefined) by (apply dget_last; auto). rewrite G. rewrite WR.
  replace (length (h ++ [n1])) with (S (length h)) by (rewrite app_length; simpl; lia).
  rewrite <- app_assoc. cbn [app]. rewrite put_mid. change (nd_setters n1) with (nd_setters n ++ [(name, @undefined A)]).
  rewrite (dset_last _ _ _ _ _ NI). reflexivity.
Qed.
(** A parameter that is a function given by keyword, the only keyword: two nodes are created.  The first calls the function with the keyword
    as argument, the second, without arguments, provides that argument. *)
Theorem C118_function_by_keyword : forall A (none : value A) (h : nheap A) n name label f,
  nd_attrs n = [] -> nd_pos n = None -> ~ In name (map fst (nd_setters n)) -> name <> "function_node_result" ->
  add_parameter_kw none (h ++ [n]) (length h) name None None (mkKw label [(name, PCall f)]) =
  (h ++ [with_setters n (nd_setters n ++ [(name, as_function (S (length h)) "function_node_result")]);
         call_node label f [(name, as_function (S (S (length h))) "function_node_result")]; call_node None f []], None).
Proof.
  intros A none h n name label f EA EP NI NR.
  assert (WR : forall H : nheap A, wrap_kw none (mkKw label [(name, PCall f)]) H f =
    (H ++ [call_node label f [(name, as_function (S (length H)) "function_node_result")]; call_node None f []], length H, None)).
  { intros H. unfold wrap_kw, fn_new, fn_new_with. cbn [kw_label kw_vals fn_add_args]. cbv zeta. rewrite arg_mid.
    rewrite (add_call _ _ _ _ name f None []); auto; [|intros n1; apply wrap0_made].
    cbn [fn_blank renamed with_str nd_label nd_class nd_fn nd_func nd_setters nd_pos nd_str nd_args nd_outs nd_attrs app].
    unfold set_outs. unfold with_setters; cbn [nd_label nd_class nd_fn nd_func nd_setters nd_pos nd_str nd_args nd_outs nd_attrs].
    rewrite nth_mid, upd_mid. cbn [nd_label nd_class nd_fn nd_func nd_setters nd_pos nd_str nd_args nd_outs nd_attrs fn_add_outputs].
    assert (NN : ~ In res (dkeys [(name, as_function (A := A) (S (length H)) res)])) by (cbn; intros [X|[]]; apply NR; exact X).
    unfold fn_add_output. fold res. rewrite (add_at _ H _ [call_node None f []] _ _ _ (as_constant none)); auto; try (intros; discriminate).
    unfold with_setters; cbn [nd_label nd_class nd_fn nd_func nd_setters nd_pos nd_str nd_args nd_outs nd_attrs graded].
    rewrite nth_mid. cbn [nd_setters]. rewrite (dget_last _ _ _ _ NN), put_mid. cbn [nd_setters]. rewrite (dset_last _ _ _ _ _ NN).
    unfold with_setters; cbn [nd_label nd_class nd_fn nd_func nd_setters nd_pos nd_str nd_args nd_outs nd_attrs]. reflexivity. }
  unfold add_parameter_kw, resolve. cbn [kw_vals dget]. rewrite String.eqb_refl.
  unfold add_parameter_with. rewrite nth_mid, EA. cbn [smem existsb andb]. rewrite (proj2 (dmem_false _ _ _) NI).
  rewrite put_mid, (dset_new _ _ _ _ NI). cbv zeta. set (n1 := with_setters n (nd_setters n ++ [(name, undefined)])).
  unfold set_parameter_with. rewrite nth_mid. cbv zeta.
  assert (W : with_pos n1 None = n1). { unfold n1, with_pos, with_setters. cbn. rewrite EP. reflexivity. }
  rewrite W, upd_mid. assert (G : dget name (nd_setters n1) = Some undefined) by (apply dget_last; auto). rewrite G. rewrite WR.
  replace (length (h ++ [n1])) with (S (length h)) by (rewrite app_length; simpl; lia).
  rewrite <- app_assoc. cbn [app]. rewrite put_mid. change (nd_setters n1) with (nd_setters n ++ [(name, @undefined A)]).
  rewrite (dset_last _ _ _ _ _ NI). reflexivity.
Qed.

(** ** Cases *)
Definition zval (z : Z) : value Z := Atom z.
(** The sum of the arguments, of any names; and a function without parameters. *)
Fixpoint total (l : list (string * value Z)) : Z := match l with (_, Atom z) :: l' => (z + total l')%Z | _ => 0%Z end.
Definition any_sum (w : nat) (k : nat) (args : dict (value Z)) : nat * result (value Z) := (S w, Ok (Atom (100 + total args)%Z)).
Definition no_parameters (w : nat) (k : nat) (args : dict (value Z)) : nat * result (value Z) :=
  (w, match args with [] => Ok (Atom 7%Z) | _ => Err TypeError end).
Definition read_of (r : result (nheap Z * sm Z nat)) (nd name : string) : result (value Z) :=
  match r with Ok (_, m) => gs_item (sm_gs m) nd name | Err e => Err e end.
Definition run_kw (func : nat -> nat -> dict (value Z) -> nat * result (value Z)) (r : result (nheap Z * nat)) : result (nheap Z * sm Z nat) :=
  match r with Ok (h, i) => sample_parameters func 9 h i GNone 1 0 | Err e => Err e end.
Example C118_applies :
  let kws := [("redshift", PConst (zval 3)); ("scale", PConst (zval 20))] in
  let none := zval 0 in
  (* ConstantSEDModel(brightness=f, redshift=3, scale=20): f(redshift=3, scale=20). *)
  read_of (run_kw any_sum (constant_sed none (PCall "f") (mkKw None kws) [])) "ConstantSEDModel_0" "brightness" = Ok (zval 123) /\
  (* The same with a label. *)
  run_kw any_sum (constant_sed none (PCall "f") (mkKw (Some "star") kws) []) = Err ValueError /\
  (* A constant brightness with a label. *)
  read_of (run_kw any_sum (constant_sed none (PConst (zval 5)) (mkKw (Some "star") kws) [])) "star" "brightness" = Ok (zval 5) /\
  (* A function without parameters: with a redshift and alone. *)
  run_kw no_parameters (constant_sed none (PCall "f") (mkKw None kws) []) = Err TypeError /\
  read_of (run_kw no_parameters (constant_sed none (PCall "f") (mkKw None []) [])) "ConstantSEDModel_0" "brightness" = Ok (zval 7) /\
  (* SNIaHost(hostmass=f): f(hostmass=f()), even if it is the only argument; so not with a function without parameters. *)
  read_of (run_kw any_sum (snia_host none (mkKw None [("hostmass", PCall "f")]) [])) "SNIaHost_0" "hostmass" = Ok (zval 200) /\
  run_kw no_parameters (snia_host none (mkKw None [("hostmass", PCall "f")]) []) = Err TypeError /\
  read_of (run_kw any_sum (snia_host none (mkKw None [("hostmass", PConst (zval 9))]) [])) "SNIaHost_0" "hostmass" = Ok (zval 9) /\
  read_of (run_kw any_sum (snia_host none (mkKw None []) [])) "SNIaHost_0" "hostmass" = Ok none /\
  (* EclipsingBinaryStar: the period is needed; the period's function does not get the period, the others do. *)
  eclipsing_binary none (mkKw None [("inclination", PConst (zval 1))]) [] = Err TypeError /\
  read_of (run_kw any_sum (eclipsing_binary none (mkKw None [("period", PCall "f"); ("inclination", PConst (zval 2))]) [])) "EclipsingBinaryStar_0" "period"
    = Ok (zval 102) /\
  read_of (run_kw any_sum (eclipsing_binary none (mkKw None [("period", PConst (zval 5)); ("inclination", PCall "f")]) [])) "EclipsingBinaryStar_0" "inclination"
    = Ok (zval 205) /\
  (* With a cosmology: the distance is computed from the redshift; the seed and the cosmology do not reach that function. *)
  read_of (run_kw any_sum (constant_sed none (PConst (zval 5)) (mkKw None [("redshift", PConst (zval 3)); ("cosmology", PConst (zval 1)); ("seed", PConst (zval 50))]) []))
    "ConstantSEDModel_0" "distance" = Ok (zval 103) /\
  (* A linked keyword must exist under its own name in the other node. *)
  constant_sed none (PCall "f") (mkKw None [("size", PNode 0)]) [ex_blank "Other"] = Err ValueError.
Proof. vm_compute. repeat split. Qed.
Example C118_hypotheses :
  exists H, constant_sed (zval 0) (PCall "f") (mkKw (Some "star") [("redshift", PConst (zval 3)); ("t0", PNode 0)])
     (fst (add_parameter (zval 0) [ex_blank "Other"] 0 "t0" (PConst (zval 4)) None [])) = Ok (H, 1) /\
    forall W (func : W -> nat -> dict (value Z) -> W * result (value Z)) fuel g num w, valid_given g ->
      exists e, sample_parameters func fuel H 1 g num w = Err e.
Proof.
  apply (C118_constant_sed_label_refuted Z (zval 0) "star" _ [("redshift", as_constant (zval 3)); ("t0", as_parameter 0 "t0")]).
  - apply nodupb_ok. reflexivity.
  - cbn. intros [X|[X|[]]]; discriminate X.
  - cbn. intros [X|[X|[]]]; discriminate X.
  - intros [|k] n E; [|destruct k; discriminate E]. injection E as <-. cbn. split; [apply nodupb_ok; reflexivity|]. split; [constructor|intros o []].
  - repeat constructor.
Qed.
Print Assumptions C118_set.
Print Assumptions C118_add.
Print Assumptions C118_other_keywords_irrelevant.
Print Assumptions C118_function_gets_all_keywords.
Print Assumptions C118_parameter_is_result.
Print Assumptions C118_narrow_function_refuted.
Print Assumptions C118_shared_label_refuted.
Print Assumptions C118_constant_sed_built.
Print Assumptions C118_constant_sed_label_refuted.
Print Assumptions C118_constant_sed_plain_function.
Print Assumptions C118_function_by_keyword.
