(** Further theorems for C118, found missing by mutants of the model: the parameters of the models that add parameters of their own
    (SNIaHost, EclipsingBinaryStar, ConstantSEDModel) and the arguments of the node that computes the distance, for every set of
    keyword arguments. *)
From Coq Require Import Reals String Ascii List Bool Arith ZArith Lia Relations.
From Verif Require Import Base BaseFacts ScipyModel SniaModel GraphStateModel GraphStateProofs GraphStateProofs2 GraphStateProofs4 GraphStateProps
  NodeGraphModel NodeGraphProofs NodeSampleProofs NodeSampleProofs2 NodeGraphProps NodeParamProps SniaSourceModel SniaSourceRun SniaSourceProps CosmoModel CosmoProps KwargsModel KwargsProps.
Import ListNotations.
Open Scope string_scope.
Open Scope list_scope.
Open Scope nat_scope.

Section K.
Context {A : Type} (none : value A).

(** ** Specification *)
(** The keyword arguments, with the recipe each of them stands for (constants, parameters of other nodes, nodes). *)
Definition recipes (h : nheap A) (vals : list (string * pyval A)) (es : dict (setter A)) : Prop :=
  Forall2 (fun kv ks => fst kv = fst ks /\ source h (fst kv) (snd kv) = Some (snd ks)) vals es.
(** The names the base class takes for itself. *)
Definition base_names : list string := ["ra"; "dec"; "redshift"; "t0"; "distance"; "seed"; "cosmology"].
Definition others (es : dict (setter A)) : dict (setter A) := filter (fun ks => negb (smem (fst ks) base_names)) es.
(** Where the distance comes from, and the node that computes it, if any. *)
Definition distance_recipe (h : nheap A) (es : dict (setter A)) : setter A * list (node A) :=
  match dget "distance" es with
  | Some s => (no_grad s, [])
  | None => if dmem "cosmology" es && dmem "redshift" es
            then (as_function (S (length h)) "function_node_result", [helper_node (length h) (others es)])
            else (no_grad (as_constant none), [])
  end.
Definition five_parameters (h : nheap A) (es : dict (setter A)) : dict (setter A) :=
  map (fun k => (k, no_grad (base_recipe none es k))) ["ra"; "dec"; "redshift"] ++ [("t0", base_recipe none es "t0")] ++
  [("distance", fst (distance_recipe h es))].
(** The model and the node that computes its distance, at the end of the heap. *)
Definition model_nodes (h : nheap A) (cls : string) (label : option string) (es own : dict (setter A)) : nheap A :=
  h ++ model_node cls label (five_parameters h es ++ own) :: snd (distance_recipe h es).

(** ** Proofs *)
Lemma recipes_dget : forall h vals es, recipes h vals es -> forall k,
  match dget k vals with Some v => exists s, dget k es = Some s /\ source h k v = Some s | None => dget k es = None end.
Proof. intros h vals es F k. now apply dget_sources. Qed.
Lemma recipes_arg : forall h vals es k, recipes h vals es -> source h k (arg none (dget k vals)) = Some (base_recipe none es k).
Proof.
  intros h vals es k F. assert (X := recipes_dget _ _ _ F k). unfold base_recipe. destruct (dget k vals) as [v|].
  - destruct X as (s & -> & X). exact X.
  - rewrite X. reflexivity.
Qed.
Lemma recipes_dmem : forall h vals es k, recipes h vals es -> dmem k vals = dmem k es.
Proof.
  intros h vals es k F. assert (X := recipes_dget _ _ _ F k). unfold dmem. destruct (dget k vals) as [v|]; [destruct X as (s & -> & _)|rewrite X]; reflexivity.
Qed.
Lemma recipes_keys : forall h vals es, recipes h vals es -> map fst es = map fst vals.
Proof. intros h vals es F. induction F as [|[a b] [c d] x y [X _] _ IH]; auto. cbn in *. congruence. Qed.
Lemma recipes_filter : forall h vals es (p : string -> bool), recipes h vals es ->
  recipes h (filter (fun kv => p (fst kv)) vals) (filter (fun ks => p (fst ks)) es).
Proof.
  intros h vals es p F. induction F as [|[a b] [c d] x y [X Y] F IH]; [constructor|]. cbn in X, Y. subst c. cbn. destruct (p a); [constructor; auto|auto].
Qed.
Lemma own_names : forall k, negb (own_keyword k) && negb (String.eqb k "cosmology") = negb (smem k base_names).
Proof.
  intros k. unfold own_keyword, base_names, smem. cbn [existsb].
  repeat match goal with |- context [String.eqb ?a ?b] => destruct (String.eqb a b) end; reflexivity.
Qed.
Lemma nodup_filter : forall V (p : string * V -> bool) l, NoDup (map fst l) -> NoDup (map fst (filter p l)).
Proof.
  intros V p l. induction l as [|x l IH]; cbn; intros H; [constructor|]. inversion H; subst. destruct (p x); cbn; auto. constructor; auto.
  intros X. apply H2. apply in_map_iff in X as (y & E & X). apply filter_In in X as [X _]. rewrite <- E. now apply in_map.
Qed.
Lemma in_filter_keys : forall V (p : string * V -> bool) l k, In k (map fst (filter p l)) -> In k (map fst l) /\ exists x, In x l /\ fst x = k /\ p x = true.
Proof.
  intros V p l k X. apply in_map_iff in X as (y & E & X). apply filter_In in X as [X Y]. split; [rewrite <- E; now apply in_map|eauto].
Qed.

(** The base class. *)
Lemma physical_built : forall cls label vals es h, NoDup (map fst vals) -> ~ In "function_node_result" (map fst vals) -> recipes h vals es ->
  physical_kw none cls (mkKw label vals) h = Ok (model_nodes h cls label es [], length h).
Proof.
  intros cls label vals es h ND NR F. unfold physical_kw. cbn [kw_label kw_vals].
  assert (FX : filter (fun kv : string * pyval A => negb (own_keyword (fst kv)) && negb (String.eqb (fst kv) "cosmology")) vals =
               filter (fun kv => negb (smem (fst kv) base_names)) vals).
  { apply filter_ext. intros [k v]. apply own_names. }
  rewrite FX. set (extra := filter (fun kv : string * pyval A => negb (smem (fst kv) base_names)) vals).
  assert (B := C109_built A none cls label (dget "ra" vals) (dget "dec" vals) (dget "redshift" vals) (dget "t0" vals) (dget "distance" vals)
    (dmem "cosmology" vals) extra h _ _ _ _ (recipes_arg h vals es "ra" F) (recipes_arg h vals es "dec" F) (recipes_arg h vals es "redshift" F) (recipes_arg h vals es "t0" F)).
  cbv zeta in B. unfold model_nodes, five_parameters, distance_recipe. rewrite app_nil_r.
  assert (D := recipes_dget _ _ _ F "distance"). destruct (dget "distance" vals) as [d|].
  - destruct D as (s & D1 & D2). rewrite D1, (B _ D2). reflexivity.
  - rewrite D. rewrite <- (recipes_dmem _ _ _ "cosmology" F), <- (recipes_dmem _ _ _ "redshift" F).
    assert (RZ : dmem "redshift" vals = match dget "redshift" vals with Some _ => true | None => false end) by reflexivity.
    rewrite RZ. destruct (dmem "cosmology" vals && match dget "redshift" vals with Some _ => true | None => false end) eqn:EC.
    + rewrite (B (others es)); [reflexivity| | | |].
      * now apply nodup_filter.
      * intros X. apply in_filter_keys in X as (_ & [k v] & _ & E & X). cbn in E, X. subst k. discriminate X.
      * intros X. apply in_filter_keys in X as (X & _). auto.
      * apply (recipes_filter h vals es (fun k => negb (smem k base_names)) F).
    + rewrite B. reflexivity.
Qed.
(** Parameters of a subclass, each with a recipe. *)
Lemma add_own_built : forall h cls label kw t ps os first,
  NoDup (map fst first ++ map fst ps) ->
  Forall2 (fun nv ks => fst nv = fst ks /\ source h (fst nv) (resolve none (fst nv) (snd nv) kw) = Some (snd ks)) ps os ->
  add_own none (h ++ model_node cls label first :: t) (length h) ps kw = Ok (h ++ model_node cls label (first ++ os) :: t, length h).
Proof.
  intros h cls label kw t ps os first ND F. revert first ND. induction F as [|[name v] [k s] ps os [E S] F IH]; intros first ND; cbn [add_own].
  - now rewrite app_nil_r.
  - cbn in E, S. subst k. unfold add_parameter_kw.
    assert (NI : ~ In name (dkeys first)).
    { intros X. cbn in ND. apply NoDup_remove_2 in ND. apply ND. apply in_or_app. now left. }
    rewrite (add_old (wrap_kw none kw) h h (model_node cls label first) t name (resolve none name v kw) None s); auto; [|exists []; now rewrite app_nil_r].
    cbn [lift graded]. change (with_setters (model_node cls label first) (nd_setters (model_node cls label first) ++ [(name, s)])) with
      (model_node cls label (first ++ [(name, s)])).
    rewrite IH.
    + now rewrite <- app_assoc.
    + rewrite map_app. cbn [map fst]. rewrite <- app_assoc. exact ND.
Qed.
Lemma resolve_given : forall name v kw, resolve none name (Some v) kw = v.
Proof. reflexivity. Qed.
Lemma resolve_arg : forall name kw, resolve none name None kw = arg none (dget name (kw_vals kw)).
Proof. reflexivity. Qed.
Lemma from_keywords : forall h label vals es names, recipes h vals es ->
  Forall2 (fun nv ks => fst nv = fst ks /\ source h (fst nv) (resolve none (fst nv) (snd nv) (mkKw label vals)) = Some (snd ks))
    (map (fun k => (k, None)) names) (map (fun k => (k, base_recipe none es k)) names).
Proof.
  intros h label vals es names F. induction names as [|k names IH]; cbn; constructor; auto. split; [reflexivity|]. cbn [fst snd]. rewrite resolve_arg. cbn [kw_vals].
  now apply recipes_arg.
Qed.

(** ** The properties *)
(** SNIaHost: the base parameters and the host mass, each from the keyword of its name, else None; the distance from the keyword, else, with a
    cosmology and a redshift, from a node whose arguments are the redshift and the keywords the base class does not know. *)
Theorem C118_snia_host_built : forall label vals es h,
  NoDup (map fst vals) -> ~ In "function_node_result" (map fst vals) -> recipes h vals es ->
  snia_host none (mkKw label vals) h = Ok (model_nodes h "SNIaHost" label es [("hostmass", base_recipe none es "hostmass")], length h).
Proof.
  intros label vals es h ND NR F. unfold snia_host, model_kw. rewrite (physical_built _ _ _ _ _ ND NR F). cbn [bind]. unfold model_nodes. rewrite app_nil_r.
  apply (add_own_built h "SNIaHost" label (mkKw label vals) _ [("hostmass", None)]).
  - apply nodupb_ok. reflexivity.
  - apply (from_keywords h label vals es ["hostmass"] F).
Qed.
(** ConstantSEDModel with a brightness that is no plain function. *)
Theorem C118_constant_sed_recipe : forall label vals es h b sb,
  NoDup (map fst vals) -> ~ In "function_node_result" (map fst vals) -> recipes h vals es -> source h "brightness" b = Some sb ->
  constant_sed none b (mkKw label vals) h = Ok (model_nodes h "ConstantSEDModel" label es [("brightness", sb)], length h).
Proof.
  intros label vals es h b sb ND NR F SB. unfold constant_sed, model_kw. rewrite (physical_built _ _ _ _ _ ND NR F). cbn [bind]. unfold model_nodes. rewrite app_nil_r.
  apply (add_own_built h "ConstantSEDModel" label (mkKw label vals) _ [("brightness", Some b)] [("brightness", sb)]).
  - apply nodupb_ok. reflexivity.
  - repeat constructor. exact SB.
Qed.
(** EclipsingBinaryStar needs the period; the other six parameters are keywords, else None. *)
Definition binary_names := ["major_semiaxis"; "inclination"; "primary_radius"; "secondary_radius"; "primary_temperature"; "secondary_temperature"].
Theorem C118_eclipsing_no_period : forall label vals h, ~ In "period" (map fst vals) -> eclipsing_binary none (mkKw label vals) h = Err TypeError.
Proof. intros label vals h NI. unfold eclipsing_binary. cbn [kw_vals]. assert (X : dget "period" vals = None) by (apply dget_None; exact NI). now rewrite X. Qed.
Lemma drop_period : forall label (vals : list (string * pyval A)), without "period" (mkKw label vals) = mkKw label (filter (fun kv => negb (String.eqb (fst kv) "period")) vals).
Proof. reflexivity. Qed.
Lemma filter_dget : forall V (d : dict V) k p, k <> p -> dget k (filter (fun kv => negb (String.eqb (fst kv) p)) d) = dget k d.
Proof.
  intros V d k p NE. induction d as [|[a b] d IH]; cbn; auto. destruct (String.eqb a p) eqn:E; cbn.
  - apply String.eqb_eq in E. subst a. destruct (String.eqb k p) eqn:E2; auto. apply String.eqb_eq in E2. congruence.
  - now rewrite IH.
Qed.
Theorem C118_eclipsing_binary_built : forall label vals es h sp,
  NoDup (map fst vals) -> ~ In "function_node_result" (map fst vals) -> recipes h vals es -> dget "period" es = Some sp ->
  eclipsing_binary none (mkKw label vals) h =
  Ok (model_nodes h "EclipsingBinaryStar" label (filter (fun ks => negb (String.eqb (fst ks) "period")) es)
        (("period", sp) :: map (fun k => (k, base_recipe none es k)) binary_names), length h).
Proof.
  intros label vals es h sp ND NR F SP. unfold eclipsing_binary. cbn [kw_vals]. assert (X := recipes_dget _ _ _ F "period").
  destruct (dget "period" vals) as [p|]; [|congruence]. destruct X as (s & X1 & X2). assert (s = sp) by congruence. subst s.
  rewrite drop_period. unfold model_kw.
  rewrite (physical_built _ label _ (filter (fun ks => negb (String.eqb (fst ks) "period")) es) h).
  2:{ now apply nodup_filter. }
  2:{ intros Y. apply in_filter_keys in Y as (Y & _). auto. }
  2:{ apply (recipes_filter h vals es (fun k => negb (String.eqb k "period")) F). }
  cbn [bind]. set (es' := filter (fun ks => negb (String.eqb (fst ks) "period")) es). unfold model_nodes. rewrite app_nil_r.
  rewrite (add_own_built h "EclipsingBinaryStar" label _ _ [("period", Some p)] [("period", sp)]).
  2:{ apply nodupb_ok. reflexivity. }
  2:{ repeat constructor. exact X2. }
  cbn [bind]. change [("major_semiaxis", @None (pyval A)); ("inclination", None); ("primary_radius", None); ("secondary_radius", None); ("primary_temperature", None);
    ("secondary_temperature", None)] with (map (fun k => (k, @None (pyval A))) binary_names).
  rewrite (add_own_built h "EclipsingBinaryStar" label (mkKw label vals) _ (map (fun k => (k, None)) binary_names) (map (fun k => (k, base_recipe none es k)) binary_names)).
  - now rewrite <- app_assoc.
  - apply nodupb_ok. reflexivity.
  - apply from_keywords. exact F.
Qed.
(** A period that is a plain function becomes a node that is given all other keywords, but not the period itself (which its own call of the constructor
    has taken out of them). *)
Theorem C118_eclipsing_period_function : forall label vals es h f,
  NoDup (map fst vals) -> ~ In "function_node_result" (map fst vals) -> ~ In "cosmology" (map fst vals) -> dget "period" vals = Some (PCall f) ->
  recipes h (filter (fun kv => negb (String.eqb (fst kv) "period")) vals) es ->
  eclipsing_binary none (mkKw label vals) h =
  Ok (h ++ [model_node "EclipsingBinaryStar" label
              (five_parameters h es ++ ("period", as_function (S (length h)) "function_node_result") :: map (fun k => (k, base_recipe none es k)) binary_names);
            call_node label f es], length h) /\
  ~ In "period" (map fst es).
Proof.
  intros label vals es h f ND NR NC EP F. split.
  2:{ rewrite (recipes_keys _ _ _ F). intros X. apply in_filter_keys in X as (_ & [k v] & _ & E & X). cbn in E, X. subst k. discriminate X. }
  unfold eclipsing_binary. cbn [kw_vals]. rewrite EP, drop_period. set (vals' := filter (fun kv => negb (String.eqb (fst kv) "period")) vals) in *.
  assert (ND' : NoDup (map fst vals')) by now apply nodup_filter.
  assert (NR' : ~ In "function_node_result" (map fst vals')) by (intros X; apply in_filter_keys in X as (X & _); auto).
  assert (NC' : dmem "cosmology" es = false).
  { rewrite <- (recipes_dmem _ _ _ "cosmology" F). apply dmem_false. intros X. apply in_filter_keys in X as (X & _). auto. }
  unfold model_kw. rewrite (physical_built _ label vals' es h ND' NR' F). cbn [bind]. unfold model_nodes. rewrite app_nil_r.
  assert (NX : snd (distance_recipe h es) = []).
  { unfold distance_recipe. rewrite NC'. cbn [andb]. destruct (dget "distance" es); reflexivity. }
  rewrite NX.
  assert (ONE : forall H i nv kw, add_own none H i [nv] kw = lift (add_parameter_kw none H i (fst nv) (snd nv) None kw) (fun h' => Ok (h', i)))
    by (intros H i [nm v] kw; reflexivity).
  rewrite ONE. cbn [fst snd].
  assert (E1 : add_parameter_kw none (h ++ [model_node "EclipsingBinaryStar" label (five_parameters h es)]) (length h) "period" (Some (PCall f)) None (mkKw label vals') =
    (h ++ [model_node "EclipsingBinaryStar" label (five_parameters h es ++ [("period", as_function (S (length h)) "function_node_result")]); call_node label f es], None)).
  { rewrite (C118_function_gets_all_keywords none h _ "period" (Some (PCall f)) None (mkKw label vals') f es); auto.
    cbn. intros X. repeat destruct X as [X|X]; try discriminate X. exact X. }
  rewrite E1. cbn [lift bind].
  change [("major_semiaxis", @None (pyval A)); ("inclination", None); ("primary_radius", None); ("secondary_radius", None); ("primary_temperature", None);
    ("secondary_temperature", None)] with (map (fun k => (k, @None (pyval A))) binary_names).
  rewrite (add_own_built h "EclipsingBinaryStar" label (mkKw label vals) [call_node label f es] (map (fun k => (k, None)) binary_names) (map (fun k => (k, base_recipe none es k)) binary_names)).
  - now rewrite <- app_assoc.
  - apply nodupb_ok. reflexivity.
  - assert (G := from_keywords h label vals' es binary_names F).
    assert (EQ : forall k, In k binary_names -> dget k vals' = dget k vals).
    { intros k Hk. apply filter_dget. intros ->. cbn in Hk. repeat destruct Hk as [Hk|Hk]; try discriminate Hk. exact Hk. }
    clear - G EQ. revert G EQ. generalize binary_names. intros names. induction names as [|k names IH]; cbn; intros G EQ; [constructor|]. inversion G as [|? ? ? ? G1 G2]; subst. constructor.
    + destruct G1 as [_ G1]. split; [reflexivity|]. cbn [fst snd] in G1 |- *. rewrite resolve_arg in G1 |- *. cbn [kw_vals] in G1 |- *.
      rewrite <- (EQ k) by (now left). exact G1.
    + apply IH; auto.
Qed.
End K.

(** A host with a cosmology: the distance node gets the redshift and the mass, not the position, the seed or the cosmology. *)
Example C118_host_case : exists es, recipes (A := Z) [] [("ra", PConst (zval 5)); ("hostmass", PConst (zval 9)); ("seed", PConst (zval 7)); ("redshift", PConst (zval 1)); ("cosmology", PConst (zval 3))] es /\
  dget "distance" es = None /\ map fst (others es) = ["hostmass"] /\
  exists d n, snd (distance_recipe (zval 0) [] es) = [n] /\ nd_args n = ["redshift"; "hostmass"] /\
  dget "distance" (five_parameters (zval 0) [] es) = Some d /\ st_dep d = Some 1.
Proof.
  exists [("ra", as_constant (zval 5)); ("hostmass", as_constant (zval 9)); ("seed", as_constant (zval 7)); ("redshift", as_constant (zval 1)); ("cosmology", as_constant (zval 3))].
  split; [repeat (constructor; [split; reflexivity|]); constructor|]. split; [reflexivity|]. split; [reflexivity|]. do 2 eexists. repeat split.
Qed.
Print Assumptions C118_snia_host_built.
Print Assumptions C118_constant_sed_recipe.
Print Assumptions C118_eclipsing_no_period.
Print Assumptions C118_eclipsing_binary_built.
Print Assumptions C118_eclipsing_period_function.
