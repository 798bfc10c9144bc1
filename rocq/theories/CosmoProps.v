(** C109: distances derived from the redshift and a cosmology (src/lightcurvelynx/models/physical_model.py 62-90,
    src/lightcurvelynx/astro_utils/redshift.py 61-112). *)
From Coq Require Import Reals Lra String Ascii List Bool Arith ZArith Lia Relations.
From Verif Require Import Base BaseFacts Numerals RealBase NoiseModel NoiseProps ScipyModel SniaModel SniaProps GraphStateModel GraphStateProofs GraphStateProofs2
  GraphStateProofs4 GraphStateProps NodeGraphModel NodeGraphProofs NodeSampleProofs NodeSampleProofs2 NodeGraphProps NodeDepProps NodeRunProps
  NodeHelpers SniaSourceModel SniaSourceRun SniaSourceProps CosmoModel.
Import ListNotations.
Open Scope string_scope.
Open Scope list_scope.
Open Scope nat_scope.

(** ** Specification *)
Section Spec.
Context {A : Type}.
(** Where the parameter [name] of a new node gets its values from, if the argument [v] is a constant, the value of a parameter of another
    node ([other.name]) or a node. *)
Definition source (h : nheap A) (name : string) (v : pyval A) : option (setter A) :=
  match v with
  | PConst c => Some (as_constant c)
  | PCall _ => None
  | PMethod j m => match nth_error h j with Some d => if dmem m (nd_setters d) then Some (as_parameter j m) else None | None => None end
  | PNode j =>
      match nth_error h j with
      | Some d => if nd_fn d then Some (as_function j (if smem name (nd_outs d) then name else "function_node_result"))
                  else if dmem name (nd_setters d) then Some (as_parameter j name) else None
      | None => None
      end
  end.
(** The parameter takes no part in gradients. *)
Definition no_grad (s : setter A) : setter A := mkSet (st_type s) (st_dep s) (st_src s) (st_const s) false.
(** A node with the parameters [ps]. *)
Definition model_node (cls : string) (label : option string) (ps : dict (setter A)) : node A :=
  with_setters (renamed (mkNode label cls false None [] None "" [] [] [])) ps.
Definition res := "function_node_result".
(** The node that turns the redshift of node [i] into a distance, with further parameters [es]. *)
Definition helper_node (i : nat) (es : dict (setter A)) : node A :=
  renamed (mkNode None "RedshiftDistFunc" true (Some "redshift_to_distance")
    (("redshift", as_parameter i "redshift") :: es ++ [(res, as_compute_output undefined res)]) None "" ("redshift" :: map fst es) [res] []).
End Spec.

(** ** Proofs: building *)
Section Build.
Context {A : Type} (none : value A).
Definition graded (grad : option bool) (s : setter A) : setter A :=
  match grad with Some b => mkSet (st_type s) (st_dep s) (st_src s) (st_const s) b | None => s end.
Lemma upd_mid : forall B (h : list B) n t x, upd (length h) x (h ++ n :: t) = h ++ x :: t.
Proof. induction h as [|a h IH]; intros n t x; simpl; auto. now rewrite IH. Qed.
Lemma nth_mid : forall B (h : list B) n t, nth_error (h ++ n :: t) (length h) = Some n.
Proof. intros. rewrite nth_error_app2; auto. now rewrite Nat.sub_diag. Qed.
Lemma put_mid : forall (h : nheap A) n t name s, put_setter (h ++ n :: t) (length h) name s = h ++ with_setters n (dset name s (nd_setters n)) :: t.
Proof. intros. unfold put_setter. now rewrite nth_mid, upd_mid. Qed.
Lemma dget_last : forall V k (v : V) d, ~ In k (dkeys d) -> dget k (d ++ [(k, v)]) = Some v.
Proof. intros V k v d H. rewrite <- (dset_new _ _ v d H). apply dget_dset_same. Qed.
Lemma dset_last : forall V k (v v' : V) d, ~ In k (dkeys d) -> dset k v' (d ++ [(k, v)]) = d ++ [(k, v')].
Proof.
  induction d as [|[a b] d IH]; simpl; intros H.
  - now rewrite String.eqb_refl.
  - destruct (String.eqb k a) eqn:E; [apply String.eqb_eq in E; subst; tauto|]. rewrite IH; tauto.
Qed.
(** Adding a parameter to a node in the middle of the heap. *)
Lemma add_at : forall wrap (h : nheap A) n t name v grad s, nd_attrs n = [] -> nd_pos n = None -> ~ In name (dkeys (nd_setters n)) ->
  source (h ++ n :: t) name v = Some s -> (forall j m, v = PMethod j m -> j <> length h) -> (forall j, v = PNode j -> j <> length h) ->
  add_parameter_with wrap (h ++ n :: t) (length h) name v grad = (h ++ with_setters n (nd_setters n ++ [(name, graded grad s)]) :: t, None).
Proof.
  intros wrap h n t name v grad s EA EP NI SRC J1 J2. unfold add_parameter_with. rewrite nth_mid, EA. cbn [smem existsb andb].
  rewrite (proj2 (dmem_false _ _ _) NI). rewrite put_mid, (dset_new _ _ _ _ NI). cbv zeta.
  set (n1 := with_setters n (nd_setters n ++ [(name, undefined)])).
  assert (SET : set_parameter_with wrap (h ++ n1 :: t) (length h) name v = (h ++ with_setters n (nd_setters n ++ [(name, s)]) :: t, None)).
  { unfold set_parameter_with. rewrite nth_mid. cbv zeta.
    assert (W : with_pos n1 None = n1). { unfold n1, with_pos, with_setters. cbn. rewrite EP. reflexivity. }
    rewrite W, upd_mid. assert (G : dget name (nd_setters n1) = Some undefined) by (apply dget_last; auto). rewrite G.
    assert (PUT : forall s, put_setter (h ++ n1 :: t) (length h) name s = h ++ with_setters n (nd_setters n ++ [(name, s)]) :: t).
    { intros s0. rewrite put_mid. unfold n1 at 2. cbn [nd_setters with_setters]. rewrite dset_last; auto. }
    assert (OTH : forall j, j <> length h -> nth_error (h ++ n1 :: t) j = nth_error (h ++ n :: t) j).
    { intros j NE. destruct (lt_dec j (length h)); [rewrite !nth_error_app1; auto|]. rewrite !nth_error_app2 by lia.
      destruct (j - length h) eqn:E; [lia|]. reflexivity. }
    destruct v as [j m|f|j|c]; cbn [source] in SRC.
    - rewrite (OTH j (J1 _ _ eq_refl)). destruct (nth_error _ j) as [d|]; [|discriminate]. destruct (dmem m (nd_setters d)); [|discriminate].
      injection SRC as <-. now rewrite PUT.
    - discriminate.
    - rewrite (OTH j (J2 _ eq_refl)). destruct (nth_error _ j) as [d|]; [|discriminate]. destruct (nd_fn d).
      + injection SRC as <-. now rewrite PUT.
      + assert (E := J2 _ eq_refl). apply Nat.eqb_neq in E. rewrite E. destruct (dmem name (nd_setters d)); [|discriminate]. cbn [negb].
        injection SRC as <-. now rewrite PUT.
    - injection SRC as <-. now rewrite PUT. }
  rewrite SET. destruct grad as [b|]; [|reflexivity]. rewrite nth_mid. cbn [nd_setters with_setters]. rewrite (dget_last _ _ _ _ NI).
  rewrite put_mid. cbn [nd_setters with_setters]. rewrite (dset_last _ _ _ _ _ NI). reflexivity.
Qed.
(** A source in the old heap is one in every larger heap, and is not one of the new nodes. *)
Lemma source_more : forall (h : nheap A) t name v s, source h name v = Some s -> source (h ++ t) name v = Some s /\
  (forall j m, v = PMethod j m -> j < length h) /\ (forall j, v = PNode j -> j < length h).
Proof.
  intros h t name v s H.
  assert (L : forall j (d : node A), nth_error h j = Some d -> j < length h) by (intros j d E; apply nth_error_Some; congruence).
  destruct v as [j m|f|j|c]; cbn [source] in *; try discriminate.
  - destruct (nth_error h j) as [d|] eqn:E; [|discriminate]. rewrite nth_error_app1 by eauto. rewrite E. split; auto. split; intros; [|discriminate].
    match goal with X : PMethod _ _ = PMethod _ _ |- _ => injection X as -> -> end. eauto.
  - destruct (nth_error h j) as [d|] eqn:E; [|discriminate]. rewrite nth_error_app1 by eauto. rewrite E. split; auto. split; intros; [discriminate|].
    match goal with X : PNode _ = PNode _ |- _ => injection X as -> end. eauto.
  - split; auto. split; intros; discriminate.
Qed.
Lemma add_old : forall wrap (h h0 : nheap A) n t name v grad s, nd_attrs n = [] -> nd_pos n = None -> ~ In name (dkeys (nd_setters n)) ->
  (exists u, h = h0 ++ u) -> source h0 name v = Some s ->
  add_parameter_with wrap (h ++ n :: t) (length h) name v grad = (h ++ with_setters n (nd_setters n ++ [(name, graded grad s)]) :: t, None).
Proof.
  intros wrap h h0 n t name v grad s EA EP NI (u & ->) SRC. rewrite <- app_assoc.
  destruct (source_more _ (u ++ n :: t) _ _ _ SRC) as (S1 & S2 & S3).
  rewrite app_assoc. apply add_at; auto.
  - now rewrite <- app_assoc.
  - intros j m E. apply S2 in E. rewrite app_length. lia.
  - intros j E. apply S3 in E. rewrite app_length. lia.
Qed.
Lemma arg_mid : forall (h : nheap A) n t k, add_arg_name (h ++ n :: t) (length h) k =
  h ++ mkNode (nd_label n) (nd_class n) (nd_fn n) (nd_func n) (nd_setters n) (nd_pos n) (nd_str n) (nd_args n ++ [k]) (nd_outs n) (nd_attrs n) :: t.
Proof. intros. unfold add_arg_name. now rewrite nth_mid, upd_mid. Qed.
(** The arguments of a function node. *)
Lemma args_at : forall wrap (h0 h : nheap A), (exists u, h = h0 ++ u) -> forall args es n, nd_attrs n = [] -> nd_pos n = None ->
  NoDup (dkeys (nd_setters n) ++ map fst args) ->
  Forall2 (fun kv ks => fst kv = fst ks /\ source h0 (fst kv) (snd kv) = Some (snd ks)) args es ->
  fn_add_args wrap (h ++ [n]) (length h) args =
  (h ++ [mkNode (nd_label n) (nd_class n) (nd_fn n) (nd_func n) (nd_setters n ++ es) (nd_pos n) (nd_str n) (nd_args n ++ map fst es) (nd_outs n) (nd_attrs n)], None).
Proof.
  intros wrap h0 h U. induction args as [|[k v] args IH]; intros es n EA EP ND F; inversion F as [|? [k' s] ? es' [F1 F2] F3]; subst.
  - cbn [fn_add_args map]. rewrite !app_nil_r. destruct n; reflexivity.
  - cbn [fst snd] in *. subst k'. cbn [fn_add_args]. rewrite arg_mid.
    assert (NK : ~ In k (dkeys (nd_setters n))).
    { cbn [map fst] in ND. apply NoDup_remove_2 in ND. intros X. apply ND. apply in_app_iff. now left. }
    rewrite (add_old _ _ h0 _ _ _ _ _ s); auto. cbn [graded].
    rewrite (IH es'); auto; unfold with_setters; cbn [nd_label nd_class nd_fn nd_func nd_setters nd_pos nd_str nd_args nd_outs nd_attrs].
    + cbn [map fst]. rewrite <- !app_assoc. reflexivity.
    + unfold dkeys in *. rewrite map_app, <- app_assoc. exact ND.
Qed.
Lemma helper_made : forall (h0 h : nheap A) (n : node A) extra es, (exists u, h = h0 ++ u) -> In "redshift" (dkeys (nd_setters n)) ->
  NoDup (map fst extra) -> ~ In "redshift" (map fst extra) -> ~ In res (map fst extra) ->
  Forall2 (fun kv ks => fst kv = fst ks /\ source h0 (fst kv) (snd kv) = Some (snd ks)) extra es ->
  redshift_node none (PMethod (length h) "redshift") extra (h ++ [n]) = Ok (h ++ [n; helper_node (length h) es], S (length h)).
Proof.
  intros h0 h n extra es U RD ND N1 N2 F. unfold redshift_node, fn_make, fn_new, fn_new_with. cbv zeta.
  replace (length (h ++ [n])) with (S (length h)) by (rewrite app_length; simpl; lia).
  set (L := S (length h)). assert (EL : L = length (h ++ [n])) by (rewrite app_length; simpl; lia).
  rewrite EL. cbn [fn_add_args]. rewrite arg_mid.
  assert (KEYS : map fst es = map fst extra).
  { clear - F. induction F as [|[a b] [c d] l l' [X _] _ IH]; auto. cbn in *. congruence. }
  erewrite add_at.
  2:{ reflexivity. } 2:{ reflexivity. } 2:{ intros []. }
  2:{ cbn [source]. rewrite <- app_assoc. cbn [app]. rewrite nth_mid. rewrite (proj2 (dmem_true _ _ _) RD). reflexivity. }
  2:{ intros j m E. injection E as <- <-. rewrite app_length. simpl. lia. } 2:{ intros j E. discriminate. }
  unfold with_setters; cbn [nd_label nd_class nd_fn nd_func nd_setters nd_pos nd_str nd_args nd_outs nd_attrs graded app].
  rewrite (args_at _ h0 (h ++ [n]) ltac:(destruct U as [u ->]; exists (u ++ [n]); now rewrite <- app_assoc) extra es); auto.
  2:{ cbn [dkeys map fst app nd_setters]. constructor; auto. }
  cbn [nd_label nd_class nd_fn nd_func nd_setters nd_pos nd_str nd_args nd_outs nd_attrs graded app fn_blank renamed with_str].
  unfold set_outs. rewrite nth_mid, upd_mid. cbn [nd_label nd_class nd_fn nd_func nd_setters nd_pos nd_str nd_args nd_outs nd_attrs].
  cbn [fn_add_outputs]. unfold fn_add_output.
  rewrite (add_old _ (h ++ [n]) (h ++ [n]) _ _ _ _ _ (as_constant none)); auto.
  2:{ cbn [dkeys map fst nd_setters]. intros [X|X]; [discriminate X|]. apply N2. rewrite <- KEYS. exact X. }
  2:{ exists []. now rewrite app_nil_r. }
  unfold with_setters; cbn [nd_label nd_class nd_fn nd_func nd_setters nd_pos nd_str nd_args nd_outs nd_attrs graded].
  rewrite nth_mid. cbn [nd_setters].
  assert (NR : ~ In res (dkeys (("redshift", as_parameter (A := A) (length h) "redshift") :: es))).
  { cbn [dkeys map fst]. intros [X|X]; [discriminate X|]. apply N2. rewrite <- KEYS. exact X. }
  rewrite (dget_last _ _ _ _ NR). rewrite put_mid. cbn [nd_setters]. rewrite (dset_last _ _ _ _ _ NR).
  rewrite nth_mid, upd_mid. rewrite <- EL. unfold L. f_equal. f_equal. rewrite <- app_assoc. reflexivity.
Qed.
(** The five parameters of a model. *)
Lemma physical_start : forall cls label (h : nheap A) ra dec z t0 sra sdec sz st0 X (k : nheap A -> result X),
  source h "ra" ra = Some sra -> source h "dec" dec = Some sdec -> source h "redshift" z = Some sz -> source h "t0" t0 = Some st0 ->
  lift (add_parameter none (h ++ [renamed (mkNode label cls false None [] None "" [] [] [])]) (length h) "ra" ra (Some false) []) (fun h' =>
  lift (add_parameter none h' (length h) "dec" dec (Some false) []) (fun h' =>
  lift (add_parameter none h' (length h) "redshift" z (Some false) []) (fun h' =>
  lift (add_parameter none h' (length h) "t0" t0 None []) k))) =
  k (h ++ [model_node cls label [("ra", no_grad sra); ("dec", no_grad sdec); ("redshift", no_grad sz); ("t0", st0)]]).
Proof.
  intros cls label h ra dec z t0 sra sdec sz st0 X k S1 S2 S3 S4. unfold add_parameter.
  assert (U : exists u : nheap A, h = h ++ u) by (exists []; now rewrite app_nil_r).
  rewrite (add_old _ h h _ _ _ _ _ sra); auto. unfold lift at 1.
  rewrite (add_old _ h h _ _ _ _ _ sdec); auto. 2:{ cbn. intros [E|[]]; discriminate E. } unfold lift at 1.
  rewrite (add_old _ h h _ _ _ _ _ sz); auto. 2:{ cbn. intros [E|[E|[]]]; discriminate E. } unfold lift at 1.
  rewrite (add_old _ h h _ _ _ _ _ st0); auto. cbn. intros [E|[E|[E|[]]]]; discriminate E.
Qed.
End Build.

(** ** C109 *)
(** Building a model whose arguments are constants, values of other nodes or nodes.  Only if no distance is given, but a redshift and a
    cosmology are, there is a second node: it takes the redshift of the model, and its result is the distance of the model.  Further keyword
    arguments become arguments of its function.  Otherwise the distance is the one given, or None. *)
Theorem C109_built : forall A (none : value A) cls label ra dec redshift t0 distance cosmology extra (h : nheap A) sra sdec sz st0,
  source h "ra" (arg none ra) = Some sra -> source h "dec" (arg none dec) = Some sdec -> source h "redshift" (arg none redshift) = Some sz ->
  source h "t0" (arg none t0) = Some st0 ->
  let first := [("ra", no_grad sra); ("dec", no_grad sdec); ("redshift", no_grad sz); ("t0", st0)] in
  let make := physical_cosmo none cls label ra dec redshift t0 distance cosmology extra h in
  match distance with
  | Some d => forall sd, source h "distance" d = Some sd ->
      make = Ok (h ++ [model_node cls label (first ++ [("distance", no_grad sd)])], length h)
  | None =>
      if cosmology && match redshift with Some _ => true | None => false end then
        forall es, NoDup (map fst extra) -> ~ In "redshift" (map fst extra) -> ~ In "function_node_result" (map fst extra) ->
          Forall2 (fun kv ks => fst kv = fst ks /\ source h (fst kv) (snd kv) = Some (snd ks)) extra es ->
          make = Ok (h ++ [model_node cls label (first ++ [("distance", as_function (S (length h)) "function_node_result")]);
                           helper_node (length h) es], length h)
      else make = Ok (h ++ [model_node cls label (first ++ [("distance", no_grad (as_constant none))])], length h)
  end.
Proof.
  intros A none cls label ra dec redshift t0 distance cosmology extra h sra sdec sz st0 S1 S2 S3 S4 first make.
  assert (U : exists u : nheap A, h = h ++ u) by (exists []; now rewrite app_nil_r).
  assert (FR : ~ In "distance" (dkeys first)) by (cbn; intros [E|[E|[E|[E|[]]]]]; discriminate E).
  unfold make, physical_cosmo. cbv zeta. rewrite (physical_start none cls label h _ _ _ _ sra sdec sz st0) by auto. fold first.
  assert (ONE : forall v sd, source h "distance" v = Some sd ->
    lift (add_parameter none (h ++ [model_node cls label first]) (length h) "distance" v (Some false) []) (fun h' => Ok (h', length h)) =
    Ok (h ++ [model_node cls label (first ++ [("distance", no_grad sd)])], length h)).
  { intros v sd SD. unfold add_parameter. rewrite (add_old _ h h _ _ _ _ _ sd); auto. }
  destruct distance as [d|]; [intros sd SD; now apply ONE|].
  destruct redshift as [z|]; destruct cosmology; cbn [andb]; try (now apply ONE).
  intros es ND N1 N2 F. rewrite (helper_made none h h _ extra es U) by (auto; cbn; tauto). cbn [bind].
  unfold add_parameter.
  rewrite (add_at _ h _ [helper_node (length h) es] _ _ _ (as_function (S (length h)) "function_node_result")); auto.
  - cbn [source]. replace (nth_error (h ++ model_node cls label first :: [helper_node (length h) es]) (S (length h))) with (Some (helper_node (length h) es)); [reflexivity|].
    rewrite nth_error_app2 by lia. replace (S (length h) - length h) with 1 by lia. reflexivity.
  - intros j m E. discriminate E.
  - intros j E. injection E as <-. lia.
Qed.

(** In the model [h], the distance of node [i] is the result of node [j], which works on the redshift of node [i] alone. *)
Definition derives {A} (h : nheap A) (i j : nat) : Prop :=
  exists ni nj sd sz, nth_error h i = Some ni /\ nth_error h j = Some nj /\
    In ("distance", sd) (nd_setters ni) /\ (st_type sd = SModel \/ st_type sd = SFunc) /\ st_dep sd = Some j /\ st_src sd = "function_node_result" /\
    nd_fn nj = true /\ nd_args nj = ["redshift"] /\ nd_outs nj = ["function_node_result"] /\
    In ("redshift", sz) (nd_setters nj) /\ (st_type sz = SModel \/ st_type sz = SFunc) /\ st_dep sz = Some i /\ st_src sz = "redshift".
(** A redshift, or a list of redshifts, and the distances of these. *)
Definition distances {A} (dist : A -> result A) (v v' : value A) : Prop :=
  (exists z d, v = Atom z /\ v' = Atom d /\ dist z = Ok d) \/
  (exists zs ds, v = GraphStateModel.Arr (map Atom zs) /\ v' = GraphStateModel.Arr (map Atom ds) /\ Forall2 (fun z d => dist z = Ok d) zs ds).

Lemma dist_all_ok : forall A (dist : A -> result A) l ds, dist_all dist l = Ok ds ->
  exists zs xs, l = map Atom zs /\ ds = map Atom xs /\ Forall2 (fun z d => dist z = Ok d) zs xs.
Proof.
  intros A dist. induction l as [|[z|a] l IH]; intros ds H; cbn [dist_all] in H.
  - injection H as <-. exists [], []. auto.
  - destruct (dist z) as [d|] eqn:E; [|discriminate]. cbn [bind] in H. destruct (dist_all dist l) as [ds'|] eqn:E'; [|discriminate].
    cbn [bind] in H. injection H as <-. destruct (IH _ eq_refl) as (zs & xs & -> & -> & F). exists (z :: zs), (d :: xs). auto.
  - discriminate.
Qed.
Lemma helper_ran : forall A (dist : A -> result A) args r, redshift_to_distance dist args = Ok r -> exists v, args = [("redshift", v)] /\ distances dist v r.
Proof.
  intros A dist args r H. unfold redshift_to_distance in H. destruct args as [|[k v] [|? ?]]; try discriminate.
  destruct (String.eqb k "redshift") eqn:EK; [|discriminate]. apply String.eqb_eq in EK. subst k. exists v. split; auto. destruct v as [z|l].
  - destruct (dist z) as [d|] eqn:E; [|discriminate]. cbn [bind] in H. injection H as <-. left. eauto.
  - destruct (dist_all dist l) as [ds|] eqn:E; [|discriminate]. cbn [bind] in H. injection H as <-. right.
    destruct (dist_all_ok _ _ _ _ E) as (zs & xs & -> & -> & F). exists zs, xs. auto.
Qed.
Lemma recipe_at : forall A fuel (h : nheap A) root h' k n, start_heap fuel h root = Ok h' -> nth_error h k = Some n ->
  exists n', nth_error h' k = Some n' /\ same_recipe n n'.
Proof.
  intros A fuel h root h' k n H E. destruct (start_heap_spec _ _ _ _ _ H) as [_ S]. destruct (S k) as [Q|(m & n' & E1 & E2 & E3)].
  - exists n. rewrite Q. split; auto. unfold same_recipe. auto 10.
  - exists n'. split; auto. congruence.
Qed.
Lemma started : forall A W (func : W -> nat -> dict (value A) -> W * result (value A)) fuel h root g num w h' m,
  sample_parameters func fuel h root g num w = Ok (h', m) -> start_heap fuel h root = Ok h'.
Proof.
  intros A W func fuel h root g num w h' m H. unfold sample_parameters in H. destruct (start_heap fuel h root) as [h1|]; [|discriminate].
  destruct (start_state g num); [|discriminate]. destruct (sample_helper _ _ _ _ _); [|discriminate]. now injection H as <- _.
Qed.

(** In every sampled state of a model built in this way, and in every larger model, the distances are those of the redshifts of the same
    state: sample by sample, also when the redshifts were passed as given arguments.  [i] and [j] may have been given any names. *)
Theorem C109_distance : forall A W (func : W -> nat -> dict (value A) -> W * result (value A)) (dist : A -> result A) fuel h root g num w h' m i j,
  well_formed h -> valid_given g -> sample_parameters func fuel h root g num w = Ok (h', m) -> reaches h root i -> derives h i j ->
  (forall w args, func w j args = (w, redshift_to_distance dist args)) ->
  exists ni nj, nth_error h' i = Some ni /\ nth_error h' j = Some nj /\
    ((forall name v, given_value g (nd_str ni) "distance" v \/ given_value g (nd_str nj) name v -> False) ->
     exists v v', reads (sm_gs m) (nd_str ni) "redshift" v /\ reads (sm_gs m) (nd_str ni) "distance" v' /\ distances dist v v').
Proof.
  intros A W func dist fuel h root g num w h' m i j WF VG RUN RI (ni & nj & sd & sz & Ei & Ej & I1 & T1 & D1 & Q1 & FN & EA & EO & I2 & T2 & D2 & Q2) FUNC.
  assert (ST := started _ _ _ _ _ _ _ _ _ _ _ RUN).
  destruct (recipe_at _ _ _ _ _ _ _ ST Ei) as (ni' & Ei' & (Si & _)). destruct (recipe_at _ _ _ _ _ _ _ ST Ej) as (nj' & Ej' & (Sj & _ & _ & Fj & _ & Aj & Oj)).
  exists ni', nj'. split; auto. split; auto. intros NG.
  assert (NE : j <> i \/ j = i) by lia.
  assert (RJ : reaches h root j).
  { destruct (Nat.eq_dec j i) as [->|X]; auto. eapply rt_trans; [exact RI|]. apply rt_step. exists ni, "distance", sd. auto. }
  rewrite <- Si in I1. rewrite <- Sj in I2.
  destruct (C19_linked_agree _ _ _ _ _ _ _ _ _ _ _ WF VG RUN i ni' "distance" sd RI Ei' I1) as [_ L1].
  { intros (v & X). eapply (NG "" v). left. exact X. }
  destruct (C19_linked_agree _ _ _ _ _ _ _ _ _ _ _ WF VG RUN j nj' "redshift" sz RJ Ej' I2) as [_ L2].
  { intros (v & X). eapply (NG _ v). right. exact X. }
  assert (L1' : exists v, reads (sm_gs m) (nd_str ni') "distance" v /\ reads (sm_gs m) (nd_str nj') "function_node_result" v).
  { assert (X : exists j d v, st_dep sd = Some j /\ nth_error h' j = Some d /\ reads (sm_gs m) (nd_str ni') "distance" v /\ reads (sm_gs m) (nd_str d) (st_src sd) v)
      by (destruct T1 as [T|T]; rewrite T in L1; exact L1).
    destruct X as (j' & d & v & X1 & X2 & X3 & X4). assert (j' = j) by congruence. subst j'. assert (d = nj') by congruence. subst d. rewrite Q1 in X4. eauto. }
  assert (L2' : exists v, reads (sm_gs m) (nd_str nj') "redshift" v /\ reads (sm_gs m) (nd_str ni') "redshift" v).
  { assert (X : exists j d v, st_dep sz = Some j /\ nth_error h' j = Some d /\ reads (sm_gs m) (nd_str nj') "redshift" v /\ reads (sm_gs m) (nd_str d) (st_src sz) v)
      by (destruct T2 as [T|T]; rewrite T in L2; exact L2).
    destruct X as (j' & d & v & X1 & X2 & X3 & X4). assert (j' = i) by congruence. subst j'. assert (d = ni') by congruence. subst d. rewrite Q2 in X4. eauto. }
  clear L1 L2. destruct L1' as (v' & R1 & R2). destruct L2' as (v & R3 & R4).
  destruct (WF _ _ Ej) as (_ & _ & WO). destruct (WO "function_node_result") as (so & O1 & O2); [rewrite EO; now left|].
  destruct (C22_run_consistent _ _ _ _ _ _ _ _ _ _ _ WF VG RUN j nj' RJ Ej') as (args & w1 & w2 & r & C1 & C2 & C3 & C4 & _).
  { now rewrite Fj. } { exists "function_node_result", so. rewrite Sj. auto. }
  rewrite FUNC in C1. injection C1 as _ C1. destruct (helper_ran _ _ _ _ C1) as (z & -> & DZ).
  assert (z = v). { assert (Y := C3 "redshift" z (or_introl eq_refl)). unfold reads in *. congruence. } subst z.
  destruct (C4 "function_node_result") as (u & U1 & U2). { now rewrite Oj. } { intros (x & X). eapply (NG _ x). right. exact X. }
  assert (u = v') by (unfold reads in *; congruence). subst u.
  exists v, v'. split; auto. split; auto.
  destruct (run_facts _ _ _ _ _ _ _ _ _ _ _ WF VG RUN) as (s0 & _ & ES & _ & Wf & (G1 & _ & _) & _).
  destruct (start_state_spec _ _ _ _ VG ES) as (_ & S2 & _).
  destruct U1 as [[_ ->]|[N1 [(a & -> & ->)|(l & -> & _ & ->)]]]; auto.
  exfalso. destruct DZ as [(z & d & -> & _)|(zs & ds & _ & X & _)]; [|discriminate].
  unfold reads in R4. apply reads_look in R4; [|now apply wf_wk]. apply (wf_var _ Wf) in R4. destruct R4 as [_ [X|(l & X & _)]]; [|discriminate].
  apply N1. rewrite <- S2, <- G1. exact X.
Qed.

Section Made.
Context {A : Type}.
Variables (h : nheap A) (cls : string) (label : option string) (sra sdec sz st0 : setter A) (es : dict (setter A)).
Definition made : nheap A := h ++ [model_node cls label [("ra", no_grad sra); ("dec", no_grad sdec); ("redshift", no_grad sz); ("t0", st0);
                                                        ("distance", as_function (S (length h)) res)]; helper_node (length h) es].
Lemma made_model : nth_error made (length h) = Some (model_node cls label [("ra", no_grad sra); ("dec", no_grad sdec); ("redshift", no_grad sz); ("t0", st0);
                                                        ("distance", as_function (S (length h)) res)]).
Proof. unfold made. now rewrite nth_mid. Qed.
Lemma made_helper : nth_error made (S (length h)) = Some (helper_node (length h) es).
Proof. unfold made. rewrite nth_error_app2 by lia. now replace (S (length h) - length h) with 1 by lia. Qed.
Lemma made_old : forall k, k < length h -> nth_error made k = nth_error h k.
Proof. intros k H. unfold made. now rewrite nth_error_app1. Qed.
Lemma made_inv : forall k n, nth_error made k = Some n -> (k < length h /\ nth_error h k = Some n) \/ k = length h \/ k = S (length h).
Proof.
  intros k n E. destruct (lt_dec k (length h)) as [L|L]; [rewrite made_old in E; auto|]. right.
  assert (k < length made) by (apply nth_error_Some; congruence). unfold made in H. rewrite app_length in H. simpl in H. lia.
Qed.
Lemma made_wf : well_formed h -> NoDup (map fst es) -> ~ In "redshift" (map fst es) -> ~ In res (map fst es) -> well_formed made.
Proof.
  intros WF ND N1 N2 k n E. destruct (made_inv k n E) as [[L E0]|[->| ->]].
  - eapply WF; eauto.
  - rewrite made_model in E. injection E as <-. split; [|split].
    + cbn. apply nodupb_ok. reflexivity.
    + constructor.
    + intros o [].
  - rewrite made_helper in E. injection E as <-. split; [|split].
    + cbn. rewrite map_app. cbn [map fst]. constructor.
      * intros X. apply in_app_iff in X. destruct X as [X|[X|[]]]; auto. discriminate X.
      * apply NoDup_app_cons_iff || (clear - ND N2; induction es as [|[a b] l IH]; cbn in *; [repeat constructor; auto|]; inversion ND; subst; constructor;
          [intros X; apply in_app_iff in X; destruct X as [X|[X|[]]]; auto|apply IH; auto]).
    + cbn. repeat constructor. intros [].
    + cbn. intros o [<-|[]]. exists (as_compute_output undefined res). split; [|reflexivity]. right. apply in_app_iff. right. now left.
Qed.
Lemma made_reaches : reaches made (length h) (S (length h)).
Proof.
  apply rt_step. eexists. exists "distance", (as_function (S (length h)) res). split; [apply made_model|]. split; [cbn; tauto|]. split; [reflexivity|]. lia.
Qed.
End Made.
(** A model built with a cosmology has its distance computed from its redshift (the hypothesis of C109_distance). *)
Theorem C109_derived : forall A (none : value A) cls label ra dec z t0 (h : nheap A) sra sdec sz st0,
  source h "ra" (arg none ra) = Some sra -> source h "dec" (arg none dec) = Some sdec -> source h "redshift" z = Some sz ->
  source h "t0" (arg none t0) = Some st0 -> well_formed h ->
  exists H, physical_cosmo none cls label ra dec (Some z) t0 None true [] h = Ok (H, length h) /\
    firstn (length h) H = h /\ well_formed H /\ derives H (length h) (S (length h)).
Proof.
  intros A none cls label ra dec z t0 h sra sdec sz st0 S1 S2 S3 S4 WF. exists (made h cls label sra sdec sz st0 []). split; [|split; [|split]].
  - apply (C109_built A none cls label ra dec (Some z) t0 None true [] h sra sdec sz st0 S1 S2 S3 S4 []); try constructor; cbn; tauto.
  - unfold made. rewrite firstn_app, Nat.sub_diag, firstn_all. cbn. apply app_nil_r.
  - apply made_wf; auto. constructor.
  - do 4 eexists. split; [apply made_model|]. split; [apply made_helper|]. split; [cbn; tauto|]. split; [right; reflexivity|]. split; [reflexivity|].
    split; [reflexivity|]. split; [reflexivity|]. split; [reflexivity|]. split; [reflexivity|]. split; [cbn; left; reflexivity|].
    split; [left; reflexivity|]. split; reflexivity.
Qed.
(** Not so if the model has keyword arguments of its own, such as the host mass of SNIaHost or the parameters of SncosmoWrapperModel: these
    are passed on to the helper node, the model is built, but no call of sample_parameters ever succeeds. *)
Theorem C109_extra_refuted : forall A (none : value A) cls label ra dec z t0 extra (h : nheap A) sra sdec sz st0 es,
  source h "ra" (arg none ra) = Some sra -> source h "dec" (arg none dec) = Some sdec -> source h "redshift" z = Some sz ->
  source h "t0" (arg none t0) = Some st0 -> well_formed h ->
  NoDup (map fst extra) -> ~ In "redshift" (map fst extra) -> ~ In "function_node_result" (map fst extra) -> extra <> [] ->
  Forall2 (fun kv ks => fst kv = fst ks /\ source h (fst kv) (snd kv) = Some (snd ks)) extra es ->
  exists H, physical_cosmo none cls label ra dec (Some z) t0 None true extra h = Ok (H, length h) /\
    forall W (func : W -> nat -> dict (value A) -> W * result (value A)) (dist : A -> result A) fuel g num w h' m,
      (forall w args, func w (S (length h)) args = (w, redshift_to_distance dist args)) -> valid_given g ->
      sample_parameters func fuel H (length h) g num w <> Ok (h', m).
Proof.
  intros A none cls label ra dec z t0 extra h sra sdec sz st0 es S1 S2 S3 S4 WF ND N1 N2 NE F. exists (made h cls label sra sdec sz st0 es). split.
  { apply (C109_built A none cls label ra dec (Some z) t0 None true extra h sra sdec sz st0 S1 S2 S3 S4 es); auto. }
  intros W func dist fuel g num w h' m FUNC VG RUN.
  assert (KEYS : map fst es = map fst extra).
  { clear - F. induction F as [|[a b] [c d] l l' [X _] _ IH]; auto. cbn in *. congruence. }
  assert (WF' : well_formed (made h cls label sra sdec sz st0 es)) by (apply made_wf; rewrite ?KEYS; auto).
  destruct (recipe_at _ _ _ _ _ _ _ (started _ _ _ _ _ _ _ _ _ _ _ RUN) (made_helper h cls label sra sdec sz st0 es)) as (n' & E' & (E1 & _ & _ & E2 & _ & E3 & _)).
  destruct (C22_run_consistent _ _ _ _ _ _ _ _ _ _ _ WF' VG RUN _ n' (made_reaches h cls label sra sdec sz st0 es) E') as (args & w1 & w2 & r & C1 & C2 & _).
  { rewrite E2. reflexivity. }
  { exists res, (as_compute_output undefined res). rewrite E1. split; [|reflexivity]. cbn. right. apply in_app_iff. right. now left. }
  rewrite FUNC in C1. injection C1 as _ C1. destruct (helper_ran _ _ _ _ C1) as (v & -> & _). rewrite E3 in C2. cbn in C2. rewrite KEYS in C2.
  injection C2 as C2. destruct extra as [|[? ?] ?]; [congruence|discriminate].
Qed.

(** Numbers: a flat universe.  Larger redshifts are larger distances, redshift 0 is distance 0; H0 only scales the distances;
    the distance modulus (C83) is that of the distance, five magnitudes per factor ten beyond ten parsec. *)
Theorem C109_parsec : forall h0 om, (0 < h0)%R -> (0 <= om <= 1)%R ->
  parsec h0 om 0 = 0%R /\ (forall a b, (0 <= a -> a < b -> parsec h0 om a < parsec h0 om b)%R) /\
  (forall z, (0 < z -> 0 < parsec h0 om z)%R) /\
  (forall h1 z, (0 < h1 -> h0 * parsec h0 om z = h1 * parsec h1 om z)%R) /\
  (forall z, (0 < z)%R -> distmod h0 om z = Some (5 * NoiseModel.log10 (parsec h0 om z / 10))%R).
Proof.
  intros h0 om H0 OM. destruct (C83_distances h0 om H0 OM) as (L0 & LI & _ & LS). unfold parsec.
  assert (M : forall a b, (0 <= a -> a < b -> 1000000 * luminosity_distance h0 om a < 1000000 * luminosity_distance h0 om b)%R).
  { intros a b Ha Hb. apply Rmult_lt_compat_l; [lra|]. now apply LI. }
  split; [rewrite L0; lra|]. split; [exact M|]. split.
  - intros z Hz. assert (X := M 0%R z (Rle_refl _) Hz). rewrite L0 in X. lra.
  - split; [|intros z Hz; destruct (C83_distmod h0 om z H0 OM) as (_ & DM & _); rewrite (DM Hz); f_equal; assert (P := LI 0%R z (Rle_refl _) Hz); rewrite L0 in P;
      replace (1000000 * luminosity_distance h0 om z / 10)%R with (luminosity_distance h0 om z * 100000)%R by field; rewrite log10_mult by lra;
      replace 100000%R with (Rpower 10 (INR 5)) by (rewrite Rpower_pow by lra; cbn; ring); rewrite log10_pow; cbn; ring].
    intros h1 z H1. specialize (LS h1 z H1). assert (h0 * (1000000 * luminosity_distance h0 om z) = 1000000 * (h0 * luminosity_distance h0 om z))%R as -> by ring. rewrite LS. ring.
Qed.
Lemma pack_map_arr : forall n (xs : list R), n <> 1 -> pack n (map Some xs) = GraphStateModel.Arr (map Atom (map (fun x => CNum (Some x)) xs)).
Proof. intros n xs H. unfold pack. apply Nat.eqb_neq in H. rewrite H. f_equal. rewrite !map_map. reflexivity. Qed.
Lemma pack_one : forall x : R, pack 1 (map Some [x]) = Atom (CNum (Some x)).
Proof. reflexivity. Qed.
Lemma flat_all : forall h0 om zs ds, Forall2 (fun z d => flat_distance h0 om z = Ok d) (map (fun x => CNum (Some x)) zs) ds ->
  ds = map (fun x => CNum (Some x)) (map (parsec h0 om) zs).
Proof.
  intros h0 om. induction zs as [|z zs IH]; intros ds F; inversion F as [|? ? ? ? E F']; subst; auto. cbn [map]. cbn in E. injection E as <-. f_equal. auto.
Qed.
Lemma flat_distances : forall h0 om n v v' zs, 1 <= n -> distances (flat_distance h0 om) v v' -> col n v zs -> col n v' (map (parsec h0 om) zs).
Proof.
  intros h0 om n v v' zs HN D [L E]. split; [now rewrite map_length|]. destruct (Nat.eq_dec n 1) as [->|NE].
  - destruct zs as [|z [|? ?]]; try discriminate. rewrite pack_one in E. destruct D as [(z' & d & E1 & -> & E2)|(zs & ds & E1 & _)]; [|congruence].
    assert (z' = CNum (Some z)) by congruence. subst z'. cbn in E2. injection E2 as <-. reflexivity.
  - rewrite pack_map_arr in E by auto. rewrite pack_map_arr by auto. destruct D as [(z' & d & E1 & _)|(zs' & ds & E1 & -> & F)]; [congruence|].
    rewrite E1 in E. injection E as E. assert (zs' = map (fun x => CNum (Some x)) zs).
    { clear - E. revert E. generalize (map (fun x => CNum (Some x)) zs). induction zs' as [|a l IH]; intros [|b l'] H; try discriminate; auto. cbn in H. injection H as -> H. f_equal; auto. }
    subst zs'. rewrite (flat_all _ _ _ _ F). reflexivity.
Qed.
(** What a parameter is given by its source, when the other nodes provide [good] values. *)
Definition provides (good : nat -> string -> value cell -> Prop) (n : nat) (s : setter cell) (v : value cell) : Prop :=
  match st_type s, st_dep s with
  | SConst, _ => exists c, st_const s = Some c /\ v = (if n =? 1 then c else GraphStateModel.Arr (repeat c n))
  | _, Some j => good j (st_src s) v
  | _, None => False
  end.
Definition available {A} (h : nheap A) (s : setter A) : Prop :=
  match st_dep s with Some j => exists d, nth_error h j = Some d /\ In (st_src s) (map fst (nd_setters d)) | None => True end.
Lemma source_kind : forall A (h : nheap A) name v s, source h name v = Some s ->
  (exists c, s = as_constant c) \/ (exists j p, j < length h /\ (s = as_parameter j p \/ s = as_function j p)).
Proof.
  intros A h name v s H. assert (L : forall j (d : node A), nth_error h j = Some d -> j < length h) by (intros j d E; apply nth_error_Some; congruence).
  destruct v as [j m|f|j|c]; cbn [source] in H; try discriminate.
  - destruct (nth_error h j) as [d|] eqn:E; [|discriminate]. destruct (dmem m (nd_setters d)); [|discriminate]. injection H as <-. right. exists j, m. eauto.
  - destruct (nth_error h j) as [d|] eqn:E; [|discriminate]. right. destruct (nd_fn d).
    + injection H as <-. eexists j, _. eauto.
    + destruct (dmem name (nd_setters d)); [|discriminate]. injection H as <-. exists j, name. eauto.
  - injection H as <-. left. eauto.
Qed.

(** Sampling succeeds: a model with a cosmology whose redshift comes from nodes that can be sampled and provide finite numbers.  The nodes
    then depend on each other in a circle, which is harmless. *)
Theorem C109_succeeds : forall W (func : W -> nat -> dict (value cell) -> W * result (value cell)) (fine : W -> Prop)
    (good : nat -> string -> value cell -> Prop) h0 om none cls label ra dec z t0 (h : nheap cell) sra sdec sz st0 fuel num w H h',
  source h "ra" (arg none ra) = Some sra -> source h "dec" (arg none dec) = Some sdec -> source h "redshift" z = Some sz ->
  source h "t0" (arg none t0) = Some st0 ->
  available h sra -> available h sdec -> available h sz -> available h st0 ->
  well_formed h -> no_dangling h -> acyclic h ->
  physical_cosmo none cls label ra dec (Some z) t0 None true [] h = Ok (H, length h) ->
  (1 <= num)%Z -> length h + 2 < fuel -> fine w -> start_heap fuel H (length h) = Ok h' -> distinct_names H h' (length h) ->
  (forall k n, length h <= k -> nth_error h' k = Some n -> has_dot (nd_str n) = false) ->
  (forall k n, k < length h -> reaches H (length h) k -> nth_error h' k = Some n -> node_runs func fine good h' (Z.to_nat num) k n) ->
  (forall v, provides good (Z.to_nat num) sz v -> exists zs, col (Z.to_nat num) v zs) ->
  (forall w args, func w (S (length h)) args = (w, redshift_to_distance (flat_distance h0 om) args)) ->
  exists m n zs, sample_parameters func fuel H (length h) GNone num w = Ok (h', m) /\ nth_error h' (length h) = Some n /\
    rcolumn (sm_gs m) (Z.to_nat num) (nd_str n) "redshift" zs /\ rcolumn (sm_gs m) (Z.to_nat num) (nd_str n) "distance" (map (parsec h0 om) zs).
Proof.
  intros W func fine good h0 om none cls label ra dec z t0 h sra sdec sz st0 fuel num w H h' S1 S2 S3 S4 A1 A2 A3 A4 WF ND [rank AC] MK HN HF FW EH DN DOT OLD ZS FUNC.
  set (N := Z.to_nat num) in *. assert (HN' : 1 <= N) by (unfold N; lia).
  assert (BUILT := C109_built cell none cls label ra dec (Some z) t0 None true [] h sra sdec sz st0 S1 S2 S3 S4 [] ltac:(constructor) ltac:(cbn; tauto) ltac:(cbn; tauto) ltac:(constructor)).
  fold (made h cls label sra sdec sz st0 []) in BUILT. cbn [app] in BUILT.
  assert (EQ : H = made h cls label sra sdec sz st0 []).
  { assert (X : Ok (H, length h) = Ok (made h cls label sra sdec sz st0 [], length h)) by (rewrite <- MK; exact BUILT). congruence. }
  clear MK BUILT. subst H. set (H := made h cls label sra sdec sz st0 []) in *. set (i := length h) in *. set (j := S i).
  assert (WFH : well_formed H) by (apply made_wf; auto; constructor).
  assert (SRCS : forall name s, In (name, s) [("ra", no_grad sra); ("dec", no_grad sdec); ("redshift", no_grad sz); ("t0", st0)] ->
     exists s0, (s = s0 \/ s = no_grad s0) /\ available h s0 /\ ((exists c, s0 = as_constant c) \/ (exists j p, j < length h /\ (s0 = as_parameter j p \/ s0 = as_function j p))) /\
       (name = "redshift" -> s0 = sz)).
  { intros name s [E|[E|[E|[E|[]]]]]; injection E as <- <-; eexists; (split; [auto|]); (split; [|split; [eapply source_kind; eauto|try discriminate; auto]]); auto. }
  (* dependencies *)
  assert (DEPM : forall k, depends H i k -> k < i \/ k = j).
  { intros k (n & name & s & E & HI & D & NE). unfold H, i in E. rewrite made_model in E. injection E as <-. cbn [model_node with_setters nd_setters] in HI.
    change [("ra", no_grad sra); ("dec", no_grad sdec); ("redshift", no_grad sz); ("t0", st0); ("distance", as_function (S (length h)) res)] with
      ([("ra", no_grad sra); ("dec", no_grad sdec); ("redshift", no_grad sz); ("t0", st0)] ++ [("distance", as_function (S (length h)) res)]) in HI.
    apply in_app_iff in HI. destruct HI as [HI|[HI|[]]].
    - destruct (SRCS _ _ HI) as (s0 & B1 & _ & B3 & _). left. assert (D' : st_dep s0 = Some k) by (destruct B1; subst; exact D).
      destruct B3 as [(c & ->)|(j0 & p & LT & [-> | ->])]; cbn in D'; [discriminate| |]; injection D' as <-; exact LT.
    - injection HI as <- <-. cbn in D. injection D as <-. right. reflexivity. }
  assert (DEPH : forall k, depends H j k -> k = i).
  { intros k (n & name & s & E & HI & D & NE). unfold H, j, i in E. rewrite made_helper in E. injection E as <-. cbn in HI.
    destruct HI as [HI|[HI|[]]]; injection HI as <- <-; cbn in D; [|discriminate]. now injection D as <-. }
  assert (DEPO : forall k k', k < i -> depends H k k' -> depends h k k').
  { intros k k' LT (n & name & s & E & R). unfold H in E. rewrite made_old in E by exact LT. exists n, name, s. auto. }
  assert (LENH : length H = S (S i)) by (unfold H, made; rewrite app_length; simpl; unfold i; lia).
  assert (OUT : forall k k', depends H k k' -> k < i \/ k = i \/ k = j).
  { intros k k' (n & _ & _ & E & _). assert (k < length H) by (apply nth_error_Some; congruence). unfold j. lia. }
  assert (NDH : no_dangling H).
  { intros k k' D. destruct (OUT _ _ D) as [LT|[->| ->]].
    - apply DEPO in D; auto. apply ND in D. fold i in D. lia.
    - destruct (DEPM _ D); unfold j in *; lia.
    - apply DEPH in D. lia. }
  set (owner := fun k => if k =? j then Some i else None).
  assert (OWN : forall k q, owner k = Some q -> k = j /\ q = i).
  { intros k q O. unfold owner in O. destruct (k =? j) eqn:E; [|discriminate]. apply Nat.eqb_eq in E. split; congruence. }
  assert (SV : serves H owner).
  { intros k q O. destruct (OWN _ _ O) as [-> ->]. split.
    - intros k' D. destruct (OUT _ _ D) as [LT|[EK|EK]]; [|exact EK|].
      + exfalso. assert (X := ND _ _ (DEPO _ _ LT D)). unfold j in X. fold i in X. lia.
      + exfalso. rewrite EK in D. assert (X := DEPH _ D). unfold j in X. lia.
    - intros nj ni a s Ej Ei IN D l1 name s' l2 SPL D'. unfold H, i in Ei. rewrite made_model in Ei. injection Ei as <-. unfold H, j, i in Ej. rewrite made_helper in Ej. injection Ej as <-.
      cbn in IN. destruct IN as [IN|[IN|[]]]; injection IN as <- <-; cbn in D; [|discriminate]. cbn [as_parameter st_src].
      cbn [model_node with_setters nd_setters] in SPL.
      assert (LST : l1 = [("ra", no_grad sra); ("dec", no_grad sdec); ("redshift", no_grad sz); ("t0", st0)]).
      { assert (NJ : forall nm s1, In (nm, s1) [("ra", no_grad sra); ("dec", no_grad sdec); ("redshift", no_grad sz); ("t0", st0)] -> st_dep s1 <> Some j).
        { intros nm s1 HI X. destruct (SRCS _ _ HI) as (s0 & B1 & _ & B3 & _). assert (Y : st_dep s0 = Some j) by (destruct B1; subst; exact X).
          destruct B3 as [(c & ->)|(j0 & p & LT & [-> | ->])]; cbn in Y; [discriminate| |]; injection Y as ->; unfold j, i in LT; lia. }
        destruct l1 as [|b1 l1]; cbn [app] in SPL; [injection SPL as <- <- _; exfalso; eapply NJ; [|exact D']; now left|]. injection SPL as <- SPL.
        destruct l1 as [|b2 l1]; cbn [app] in SPL; [injection SPL as <- <- _; exfalso; eapply NJ; [|exact D']; cbn; tauto|]. injection SPL as <- SPL.
        destruct l1 as [|b3 l1]; cbn [app] in SPL; [injection SPL as <- <- _; exfalso; eapply NJ; [|exact D']; cbn; tauto|]. injection SPL as <- SPL.
        destruct l1 as [|b4 l1]; cbn [app] in SPL; [injection SPL as <- <- _; exfalso; eapply NJ; [|exact D']; cbn; tauto|]. injection SPL as <- SPL.
        destruct l1 as [|b5 l1]; cbn [app] in SPL; auto. injection SPL as _ SPL. destruct l1; discriminate. }
      subst l1. exists (no_grad sz). split; [cbn; tauto|]. destruct (source_kind _ _ _ _ _ S3) as [(c & ->)|(j0 & p & _ & [-> | ->])]; cbn; discriminate. }
  assert (LY : layered H owner).
  { exists (fun k => if k <? i then rank k else S (List.list_max (map rank (seq 0 i))) + (if k =? i then 1 else 0)).
    assert (MX : forall k, k < i -> rank k <= List.list_max (map rank (seq 0 i))).
    { intros k LT. assert (X := proj1 (List.list_max_le (map rank (seq 0 i)) (List.list_max (map rank (seq 0 i)))) (le_n _)). rewrite Forall_forall in X. apply X. apply in_map_iff. exists k. split; auto. apply in_seq. lia. }
    assert (RJ : (j <? i) = false) by (apply Nat.ltb_ge; unfold j; lia). assert (RI : (i <? i) = false) by (apply Nat.ltb_ge; lia).
    assert (JI : (j =? i) = false) by (apply Nat.eqb_neq; unfold j; lia).
    split.
    - intros k k' D. destruct (OUT _ _ D) as [LT|[->| ->]].
      + left. assert (D0 := DEPO _ _ LT D). assert (L2 := ND _ _ D0). fold i in L2. rewrite (proj2 (Nat.ltb_lt k i) LT), (proj2 (Nat.ltb_lt k' i) L2). now apply AC.
      + left. rewrite RI, Nat.eqb_refl. destruct (DEPM _ D) as [LT| ->].
        * rewrite (proj2 (Nat.ltb_lt k' i) LT). specialize (MX _ LT). lia.
        * rewrite RJ, JI. lia.
      + right. apply DEPH in D. subst. unfold owner. now rewrite Nat.eqb_refl.
    - intros k q O. destruct (OWN _ _ O) as [-> ->]. rewrite RJ, RI, JI, Nat.eqb_refl. lia. }
  set (G := fun k name v => if k <? i then good k name v else
     if String.eqb name "redshift" || String.eqb name "distance" || String.eqb name res then exists xs, col N v xs else True).
  destruct (start_heap_spec _ _ _ _ _ EH) as [LEN _].
  destruct (C109_sampling_succeeds cell W func fine G fuel H i GNone num w h' owner) as (m & M1 & M2 & M3 & M4); auto; try exact I.
  { unfold owner, j. replace (i =? S i) with false; auto. symmetry. apply Nat.eqb_neq. lia. }
  { lia. }
  { intros k n RK En. fold N.
    destruct (lt_dec k i) as [LT|GE].
    - (* old nodes *)
      destruct (OLD k n LT RK En) as (D1 & HP & HF').
      assert (GL : forall k' name v, k' < i -> (G k' name v <-> good k' name v)).
      { intros k' name v L. unfold G. rewrite (proj2 (Nat.ltb_lt k' i) L). tauto. }
      split; auto. split.
      + intros name s HI. destruct (HP name s HI) as (D2 & T). split; auto. destruct (st_type s); auto.
        * destruct T as (v & V1 & V2). exists v. split; auto. now apply GL.
        * destruct T as (q & d & T1 & T2 & T3 & T4). exists q, d. split; auto. split; auto. split; auto. intros v Hv. apply GL; auto. apply T4.
          destruct (Nat.eq_dec q k) as [->|NE]; [now apply GL in Hv|]. apply GL in Hv; auto. apply (ND k). apply DEPO; auto. apply (start_heap_deps _ _ _ _ _ k q EH). exists n, name, s. auto.
        * destruct T as (q & d & T1 & T2 & T3 & T4). exists q, d. split; auto. split; auto. split; auto. intros v Hv. apply GL; auto. apply T4.
          destruct (Nat.eq_dec q k) as [->|NE]; [now apply GL in Hv|]. apply GL in Hv; auto. apply (ND k). apply DEPO; auto. apply (start_heap_deps _ _ _ _ _ k q EH). exists n, name, s. auto.
      + intros X FN. destruct (HF' X FN) as (F1 & F2 & F3). split; auto. split; auto. intros w0 args W0 EA GA.
        destruct (F3 w0 args W0 EA) as (w' & r & R1 & R2 & R3). { intros a v HI. apply GL; auto. }
        exists w', r. split; auto. split; auto. destruct (nd_outs n) as [|o [|o2 outs]].
        * destruct R3 as (l & L1 & L2 & L3). exists l. split; auto. split; auto. intros p o x Ho Hx. destruct (L3 p o x Ho Hx) as (u & U1 & U2). exists u. split; auto. now apply GL.
        * destruct R3 as (u & U1 & U2). exists u. split; auto. now apply GL.
        * destruct R3 as (l & L1 & L2 & L3). exists l. split; auto. split; auto. intros p o' x Ho Hx. destruct (L3 p o' x Ho Hx) as (u & U1 & U2). exists u. split; auto. now apply GL.
    - assert (KK : k = i \/ k = j). { assert (k < length h') by (apply nth_error_Some; congruence). unfold j. lia. }
      assert (HD : has_dot (nd_str n) = false) by (apply (DOT k); auto; unfold i in GE; lia).
      assert (GI : forall name v, G i name v = (if String.eqb name "redshift" || String.eqb name "distance" || String.eqb name res then exists xs, col N v xs else True)).
      { intros. unfold G. replace (i <? i) with false by (symmetry; apply Nat.ltb_ge; lia). reflexivity. }
      assert (GJ : forall name v, G j name v = (if String.eqb name "redshift" || String.eqb name "distance" || String.eqb name res then exists xs, col N v xs else True)).
      { intros. unfold G. replace (j <? i) with false by (symmetry; apply Nat.ltb_ge; unfold j; lia). reflexivity. }
      destruct KK as [-> | ->].
      + destruct (recipe_at _ _ _ _ _ _ _ EH (made_model h cls label sra sdec sz st0 [])) as (n' & E' & (E1 & _ & _ & E2 & _)).
        fold i in E'. assert (n' = n) by congruence. subst n'. cbn [model_node with_setters nd_setters nd_fn renamed with_str] in E1, E2.
        split; auto. rewrite E1, E2. split; [|discriminate].
        change [("ra", no_grad sra); ("dec", no_grad sdec); ("redshift", no_grad sz); ("t0", st0); ("distance", as_function (S (length h)) res)] with
          ([("ra", no_grad sra); ("dec", no_grad sdec); ("redshift", no_grad sz); ("t0", st0)] ++ [("distance", as_function (S (length h)) res)]).
        intros name s HI. apply in_app_iff in HI. destruct HI as [HI|[HI|[]]].
        * destruct (SRCS _ _ HI) as (s0 & B1 & B2 & B3 & B4).
          assert (HDN : has_dot name = false) by (destruct HI as [E|[E|[E|[E|[]]]]]; injection E as <- _; reflexivity).
          assert (NM : name <> "redshift" -> (String.eqb name "redshift" || String.eqb name "distance" || String.eqb name res) = false).
          { intros NR. destruct HI as [E|[E|[E|[E|[]]]]]; injection E as <- _; auto. congruence. }
          assert (GP : forall v, provides good N s0 v -> G i name v).
          { intros v PV. rewrite GI. destruct (String.eqb_spec name "redshift") as [->|NR].
            - cbn [orb]. apply ZS. rewrite <- (B4 eq_refl). exact PV.
            - specialize (NM NR). destruct (String.eqb_spec name "redshift"); [congruence|]. cbn [orb] in NM |- *. rewrite NM. exact I. }
          assert (AV : forall q, st_dep s0 = Some q -> exists d, nth_error h' q = Some d /\ In (st_src s0) (map fst (nd_setters d))).
          { intros q Q. unfold available in B2. rewrite Q in B2. destruct B2 as (d & X1 & X2).
            assert (LQ : q < length h) by (apply nth_error_Some; congruence).
            rewrite <- (made_old h cls label sra sdec sz st0 [] q LQ) in X1. destruct (recipe_at _ _ _ _ _ _ _ EH X1) as (d' & Y1 & (Y2 & _)). exists d'. split; auto. now rewrite Y2. }
          split; auto.
          assert (EQS : st_type s = st_type s0 /\ st_dep s = st_dep s0 /\ st_src s = st_src s0 /\ st_const s = st_const s0) by (destruct B1; subst; auto).
          destruct EQS as (Q1 & Q2 & Q3 & Q4). rewrite Q1, Q2, Q3, Q4.
          destruct B3 as [(c & ->)|(q & p & LT & B3)].
          -- cbn. exists c. split; auto. apply GP. cbn. eauto.
          -- assert (LI : exists j0 d, st_dep s0 = Some j0 /\ nth_error h' j0 = Some d /\
                (if j0 =? i then exists l1 l2, nd_setters n = l1 ++ (name, s) :: l2 /\ In (st_src s0) (map fst l1) /\ (forall s', In (st_src s0, s') l1 -> st_type s' <> SCompute)
                 else In (st_src s0) (map fst (nd_setters d))) /\ (forall v, G j0 (st_src s0) v -> G i name v)).
             { assert (DQ : st_dep s0 = Some q) by (destruct B3; subst; reflexivity). destruct (AV q DQ) as (d & X1 & X2). exists q, d. split; auto. split; auto.
               replace (q =? i) with false by (symmetry; apply Nat.eqb_neq; fold i in LT; lia). split; auto. intros v GV. apply GP.
               unfold G in GV. rewrite (proj2 (Nat.ltb_lt q i) LT) in GV. unfold provides. rewrite DQ. destruct B3; subst; exact GV. }
             destruct B3; subst s0; cbn [as_parameter as_function st_type]; exact LI.
        * injection HI as <- <-. split; [reflexivity|]. cbn [as_function st_type st_dep st_src].
          destruct (recipe_at _ _ _ _ _ _ _ EH (made_helper h cls label sra sdec sz st0 [])) as (nj & Ej' & (Ej1 & _)).
          exists j, nj. split; auto. split; [exact Ej'|]. replace (j =? i) with false by (symmetry; apply Nat.eqb_neq; unfold j; lia). split.
          -- rewrite Ej1. cbn. tauto.
          -- intros v. rewrite GI, GJ. cbn. auto.
      + destruct (recipe_at _ _ _ _ _ _ _ EH (made_helper h cls label sra sdec sz st0 [])) as (n' & E' & (E1 & _ & _ & E2 & E3 & E4 & E5)).
        fold i in E'. fold j in E'. assert (n' = n) by congruence. subst n'. cbn [helper_node renamed with_str nd_setters nd_fn nd_func nd_args nd_outs app map] in E1, E2, E3, E4, E5.
        split; auto. rewrite E1. split.
        * intros name s [HI|[HI|[]]]; injection HI as <- <-; (split; [reflexivity|]).
          -- cbn [as_parameter st_type st_dep st_src].
             destruct (recipe_at _ _ _ _ _ _ _ EH (made_model h cls label sra sdec sz st0 [])) as (ni & Ei' & (Ei1 & _)).
             exists i, ni. split; auto. split; [exact Ei'|]. replace (i =? j) with false by (symmetry; apply Nat.eqb_neq; unfold j; lia). split.
             ++ rewrite Ei1. cbn. tauto.
             ++ intros v. rewrite GI, GJ. cbn. auto.
          -- cbn [as_compute_output st_type]. rewrite E2, E5. split; auto. now left.
        * intros _ _. split; [rewrite E3; discriminate|]. rewrite E4, E5, E1. split.
          -- intros a [<-|[]]. exists (as_parameter i "redshift"). split; [now left|discriminate].
          -- intros w0 args W0 EA GA. destruct args as [|[a v] [|? ?]]; try discriminate. cbn in EA. injection EA as ->.
             assert (GV := GA "redshift" v (or_introl eq_refl)). rewrite GJ in GV. cbn [String.eqb Ascii.eqb Bool.eqb orb] in GV. destruct GV as (xs & L & ->).
             exists w0. fold j in FUNC. rewrite FUNC. unfold redshift_to_distance. cbn [String.eqb Ascii.eqb Bool.eqb].
             exists (pack N (map Some (map (parsec h0 om) xs))).
             assert (CC : col N (pack N (map Some (map (parsec h0 om) xs))) (map (parsec h0 om) xs)) by (split; [now rewrite map_length|reflexivity]).
             split; [|split; auto].
             ++ f_equal. destruct (Nat.eq_dec N 1) as [->|NE].
                ** destruct xs as [|x [|? ?]]; try discriminate. reflexivity.
                ** rewrite !pack_map_arr by auto. assert (DA : forall xs, dist_all (flat_distance h0 om) (map Atom (map (fun x => CNum (Some x)) xs)) = Ok (map Atom (map (fun x => CNum (Some x)) (map (parsec h0 om) xs)))).
                   { clear. induction xs as [|x xs IH]; auto. cbn [map dist_all flat_distance bind]. rewrite IH. reflexivity. }
                   rewrite DA. reflexivity.
             ++ exists (pack N (map Some (map (parsec h0 om) xs))). split.
                ** destruct (Nat.eq_dec N 1) as [E|NE]; [left; auto|]. right. split; auto. right. rewrite pack_map_arr by auto. eexists. split; [reflexivity|]. split; auto. now rewrite !map_length.
                ** rewrite GJ. cbn. eauto. }
  { split; [exact I|]. intros nd name v []. }
  destruct (C109_distance cell W func (flat_distance h0 om) fuel H i GNone num w h' m i j WFH I M1 (rt_refl _ _ _)) as (ni & nj & Ei & Ej & DD); auto.
  { destruct (C109_derived cell none cls label ra dec z t0 h sra sdec sz st0 S1 S2 S3 S4 WF) as (H2 & X1 & _ & _ & X4).
    assert (BUILT := C109_built cell none cls label ra dec (Some z) t0 None true [] h sra sdec sz st0 S1 S2 S3 S4 [] ltac:(constructor) ltac:(cbn; tauto) ltac:(cbn; tauto) ltac:(constructor)).
    cbn [andb app] in BUILT. assert (H2 = H) by (unfold H, made, res, i in *; congruence). subst H2. exact X4. }
  destruct DD as (v & v' & R1 & R2 & R3). { intros name v [[]|[]]. }
  destruct (M4 i ni "redshift" (no_grad sz)) as (v2 & R4 & GV).
  { apply rt_refl. } { exact Ei. }
  { destruct (recipe_at _ _ _ _ _ _ _ EH (made_model h cls label sra sdec sz st0 [])) as (n' & E' & (E1 & _)). fold i in E'. assert (n' = ni) by congruence. subst n'. rewrite E1. cbn. tauto. }
  assert (v2 = v) by (unfold reads in *; congruence). subst v2. unfold G in GV. replace (i <? i) with false in GV by (symmetry; apply Nat.ltb_ge; lia).
  cbn [String.eqb Ascii.eqb Bool.eqb orb] in GV. destruct GV as (zs & CV). assert (CD := flat_distances h0 om N v v' zs HN' R3 CV).
  exists m, ni, zs. split; auto. split; auto. unfold rcolumn, column. destruct CV as [L1 ->]. destruct CD as [L2 ->]. fold N. rewrite !map_length in *.
  split; split; auto.
Qed.

(** A model at redshift 1/2 in a flat universe, sampled any number of times. *)
Definition half : value cell := SniaSourceModel.num (1 / 2).
Definition near : nheap cell := made [] "ConstantSEDModel" (Some "near") (as_constant (SniaSourceModel.num 1)) (as_constant (SniaSourceModel.num 2)) (as_constant half) (as_constant (Atom CNone)) [].
Definition near_func (h0 om : R) (w : nat) (k : nat) (args : dict (value cell)) : nat * result (value cell) := (w, redshift_to_distance (flat_distance h0 om) args).
Theorem C109_case : forall h0 om num, (1 <= num)%Z ->
  physical_cosmo (Atom CNone) "ConstantSEDModel" (Some "near") (Some (PConst (SniaSourceModel.num 1))) (Some (PConst (SniaSourceModel.num 2)))
    (Some (PConst half)) None None true [] [] = Ok (near, 0) /\
  exists h' m n zs, sample_parameters (near_func h0 om) 3 near 0 GNone num 0 = Ok (h', m) /\ nth_error h' 0 = Some n /\
    rcolumn (sm_gs m) (Z.to_nat num) (nd_str n) "redshift" zs /\ rcolumn (sm_gs m) (Z.to_nat num) (nd_str n) "distance" (map (parsec h0 om) zs).
Proof.
  intros h0 om num HN. assert (MK : physical_cosmo (Atom CNone) "ConstantSEDModel" (Some "near") (Some (PConst (SniaSourceModel.num 1))) (Some (PConst (SniaSourceModel.num 2)))
    (Some (PConst half)) None None true [] [] = Ok (near, 0)) by reflexivity.
  split; [exact MK|].
  assert (NB : forall k n, nth_error (@nil (node cell)) k = Some n -> False) by (intros k n E; destruct k; discriminate E).
  destruct (start_heap 3 near 0) as [h'|e] eqn:EH; [|vm_compute in EH; discriminate EH].
  assert (EN : exists a b, map (@nd_str cell) h' = [a; b] /\ a <> b /\ has_dot a = false /\ has_dot b = false).
  { assert (X : map (@nd_str cell) h' = map (@nd_str cell) (match start_heap 3 near 0 with Ok x => x | Err _ => [] end)) by (now rewrite EH).
    rewrite X. vm_compute. do 2 eexists. split; [reflexivity|]. split; [discriminate|]. split; reflexivity. }
  destruct EN as (na & nb & EN & NAB & HA & HB).
  destruct (C109_succeeds nat (near_func h0 om) (fun _ => True) (fun _ _ _ => False) h0 om (Atom CNone) "ConstantSEDModel" (Some "near")
    (Some (PConst (SniaSourceModel.num 1))) (Some (PConst (SniaSourceModel.num 2))) (PConst half) None []
    (as_constant (SniaSourceModel.num 1)) (as_constant (SniaSourceModel.num 2)) (as_constant half) (as_constant (Atom CNone)) 3 num 0 near h')
    as (m & n & zs & M1 & M2 & M3 & M4); try reflexivity; try exact I; auto.
  - intros k n E. destruct (NB _ _ E).
  - intros i j (n & _ & _ & E & _). destruct (NB _ _ E).
  - exists (fun _ => 0). intros i j (n & _ & _ & E & _). destruct (NB _ _ E).
  - intros k1 k2 n1 n2 _ _ E1 E2 EQ. apply (map_nth_error (@nd_str cell)) in E1. apply (map_nth_error (@nd_str cell)) in E2. rewrite EN in E1, E2. rewrite EQ in E1. clear EQ.
    destruct k1 as [|[|[|k1]]]; destruct k2 as [|[|[|k2]]]; try reflexivity; try discriminate E1; try discriminate E2; cbn [nth_error] in E1, E2; congruence.
  - intros k n _ E. apply (map_nth_error (@nd_str cell)) in E. rewrite EN in E.
    destruct k as [|[|[|k]]]; try discriminate E; injection E as <-; auto.
  - intros k n LT. inversion LT.
  - intros v (c & E & ->). cbn in E. injection E as <-. exists (repeat (1 / 2)%R (Z.to_nat num)). apply const_col. lia.
  - exists h', m, n, zs. auto.
Qed.
(** The hypotheses of C109_extra_refuted: a host with a mass. *)
Example C109_extra_case : exists H, physical_cosmo (Atom CNone) "SNIaHost" None None None (Some (PConst half)) None None true [("hostmass", PConst (SniaSourceModel.num 10))] [] = Ok (H, 0) /\
  forall fuel g num h' m h0 om, valid_given g -> sample_parameters (near_func h0 om) fuel H 0 g num 0 <> Ok (h', m).
Proof.
  destruct (C109_extra_refuted cell (Atom CNone) "SNIaHost" None None None (PConst half) None [("hostmass", PConst (SniaSourceModel.num 10))] []
    (as_constant (Atom CNone)) (as_constant (Atom CNone)) (as_constant half) (as_constant (Atom CNone)) [("hostmass", as_constant (SniaSourceModel.num 10))]) as (H & H1 & H2); auto.
  - intros k n E. destruct k; discriminate E.
  - repeat constructor. intros [].
  - cbn. intros [E|[]]. discriminate E.
  - cbn. intros [E|[]]. discriminate E.
  - discriminate.
  - exists H. split; auto. intros fuel g num h' m h0 om VG. apply (H2 nat (near_func h0 om) (flat_distance h0 om)); auto.
Qed.
Print Assumptions C109_built.
Print Assumptions C109_succeeds.
