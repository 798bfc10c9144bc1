(** Property C61: parameter bookkeeping of nodes (src/lightcurvelynx/base_models.py 356-520,
    812-849). *)
From Coq Require Import String Ascii List Bool Arith ZArith Lia.
From Verif Require Import Base BaseFacts Numerals GraphStateModel NodeGraphModel NodeGraphProofs.
Import ListNotations.
Open Scope string_scope.
Open Scope list_scope.
Open Scope nat_scope.

Section P.
Context {A : Type}.
Variable none : value A.
Notation node := (node A).
Notation nheap := (nheap A).

(** Only node [i] may differ; new nodes may have been appended. *)
Definition only (i : nat) (h h' : nheap) : Prop :=
  length h <= length h' /\ forall k, k < length h -> k <> i -> nth_error h' k = nth_error h k.
Definition extends (h h' : nheap) : Prop :=
  length h <= length h' /\ forall k, k < length h -> nth_error h' k = nth_error h k.
Lemma extends_only : forall i h h', extends h h' -> only i h h'.
Proof. intros i h h' [E1 E2]. split; auto. Qed.
Lemma only_refl : forall i h, only i h h.
Proof. split; auto. Qed.
Lemma only_trans : forall i a b c, only i a b -> only i b c -> only i a c.
Proof. intros i a b c [A1 A2] [B1 B2]. split; [lia|]. intros k Hk NE. rewrite B2 by (auto; lia). auto. Qed.
Lemma only_upd : forall i h x, only i h (upd i x h).
Proof.
  intros i h x. split; [rewrite upd_length; auto|]. intros k Hk NE. rewrite nth_upd.
  apply Nat.eqb_neq in NE. now rewrite NE.
Qed.
Lemma only_put : forall i h name s, only i h (put_setter h i name s).
Proof. intros. unfold put_setter. destruct (nth_error h i); auto using only_refl, only_upd. Qed.

Definition wrap_ok (wrap : nheap -> string -> nheap * nat * option err) : Prop :=
  forall h f h' j r, wrap h f = (h', j, r) -> extends h h'.

Lemma set_only : forall wrap h i name v h' r, wrap_ok wrap ->
  set_parameter_with wrap h i name v = (h', r) -> only i h h'.
Proof.
  intros wrap h i name v h' r WO H. unfold set_parameter_with in H.
  destruct (nth_error h i) as [n0|] eqn:EN; [|inversion H; subst; apply only_refl].
  set (n := with_pos n0 None) in *. set (h1 := upd i n h) in *.
  assert (O1 : only i h h1) by apply only_upd.
  destruct (dget name (nd_setters n)) as [old|]; [|inversion H; subst; auto].
  assert (PUT : forall h2 s, only i h1 h2 -> only i h (put_setter h2 i name s)).
  { intros h2 s O2. eapply only_trans; [exact O1|]. eapply only_trans; [exact O2|apply only_put]. }
  destruct v as [j m|f|j|c].
  - destruct (nth_error h1 j); [|inversion H; subst; auto].
    destruct (dmem m _); inversion H; subst; auto. apply PUT, only_refl.
  - destruct (wrap h1 f) as [[h2 j] [e|]] eqn:EW; apply WO in EW; inversion H; subst.
    + eapply only_trans; [exact O1|apply extends_only; auto].
    + apply PUT, extends_only; auto.
  - destruct (nth_error h1 j) as [d|]; [|inversion H; subst; auto].
    destruct (nd_fn d); [inversion H; subst; apply PUT, only_refl|].
    destruct (j =? i); [inversion H; subst; auto|].
    destruct (dmem name (nd_setters d)); simpl in H; inversion H; subst; auto. apply PUT, only_refl.
  - inversion H; subst. apply PUT, only_refl.
Qed.
Lemma add_only : forall wrap h i name v grad h' r, wrap_ok wrap ->
  add_parameter_with wrap h i name v grad = (h', r) -> only i h h'.
Proof.
  intros wrap h i name v grad h' r WO H. unfold add_parameter_with in H.
  destruct (nth_error h i) as [n|]; [|inversion H; subst; apply only_refl].
  destruct (smem _ _ && _); [inversion H; subst; apply only_refl|].
  destruct (dmem name (nd_setters n)); [inversion H; subst; apply only_refl|].
  destruct (set_parameter_with wrap (put_setter h i name undefined) i name v) as [h2 [e|]] eqn:ES;
    apply set_only in ES; auto.
  - inversion H; subst. eapply only_trans; [apply only_put|exact ES].
  - assert (O2 : only i h h2) by (eapply only_trans; [apply only_put|exact ES]).
    destruct grad as [b|]; [|inversion H; subst; auto].
    destruct (nth_error h2 i) as [n2|]; [|inversion H; subst; auto].
    destruct (dget name (nd_setters n2)); inversion H; subst; auto.
    eapply only_trans; [exact O2|apply only_put].
Qed.
Lemma args_only : forall wrap args h i h' r, wrap_ok wrap ->
  fn_add_args wrap h i args = (h', r) -> only i h h'.
Proof.
  induction args as [|[k v] args IH]; simpl; intros h i h' r WO H; [inversion H; subst; apply only_refl|].
  assert (O0 : only i h (add_arg_name h i k)).
  { unfold add_arg_name. destruct (nth_error h i); auto using only_refl, only_upd. }
  destruct (add_parameter_with wrap (add_arg_name h i k) i k v None) as [h1 [e|]] eqn:EA; apply add_only in EA; auto.
  - inversion H; subst. eapply only_trans; eauto.
  - apply IH in H; auto. eapply only_trans; [exact O0|]. eapply only_trans; eauto.
Qed.
Lemma outs_only : forall outs h i h' r, fn_add_outputs none h i outs = (h', r) -> only i h h'.
Proof.
  induction outs as [|o outs IH]; simpl; intros h i h' r H; [inversion H; subst; apply only_refl|].
  destruct (fn_add_output none h i o) as [h1 r1] eqn:EO.
  assert (O1 : only i h h1).
  { unfold fn_add_output in EO.
    destruct (add_parameter_with _ h i o (PConst none) None) as [h2 [e|]] eqn:EA; apply add_only in EA;
      try (intros a b c d e0 Q; inversion Q; subst; split; auto).
    - inversion EO; subst; auto.
    - destruct (nth_error h2 i) as [n|]; [|inversion EO; subst; auto].
      destruct (dget o (nd_setters n)); inversion EO; subst; auto. eapply only_trans; [exact EA|apply only_put]. }
  destruct r1; [inversion H; subst; auto|]. apply IH in H. eapply only_trans; eauto.
Qed.
(** A new function node never touches an existing node. *)
Lemma fn_new_extends : forall wrap h f label args outs h' j r, wrap_ok wrap ->
  fn_new_with none wrap h f label args outs = (h', j, r) -> extends h h' /\ j = length h.
Proof.
  intros wrap h f label args outs h' j r WO H. unfold fn_new_with in H.
  assert (X : forall h2, only (length h) (h ++ [fn_blank f label]) h2 -> extends h h2).
  { intros h2 [O1 O2]. rewrite app_length in O1. simpl in O1. split; [lia|]. intros k Hk.
    rewrite O2 by (rewrite ?app_length; simpl; lia). now apply nth_error_app1. }
  destruct (fn_add_args wrap _ (length h) args) as [h1 [e|]] eqn:EA; apply args_only in EA; auto.
  - inversion H; subst. auto.
  - assert (O1 : only (length h) h1 (set_outs h1 (length h) (match outs with [] => ["function_node_result"] | _ => outs end))).
    { unfold set_outs. destruct (nth_error h1 (length h)); auto using only_refl, only_upd. }
    destruct (fn_add_outputs none _ (length h) _) as [h2 r2] eqn:EO in H. inversion H; subst.
    apply outs_only in EO. split; auto. apply X. eapply only_trans; [exact EA|]. eapply only_trans; eauto.
Qed.
Lemma wrap0_ok : wrap_ok (wrap0 none).
Proof.
  intros h f h' j r H. unfold wrap0 in H. apply fn_new_extends in H; [tauto|].
  intros a b c d e Q; inversion Q; subst; split; auto.
Qed.
Lemma wrap_kw_ok : forall kwargs, wrap_ok (fun h f => fn_new none h f None kwargs []).
Proof. intros kw h f h' j r H. unfold fn_new in H. apply fn_new_extends in H; [tauto|apply wrap0_ok]. Qed.

(** ** Specification *)
(** The recipe that [set_parameter(name, v)] must produce in node [i] of heap [h]; [Err] is
    the exception. *)
Definition expected (h : nheap) (i : nat) (name : string) (v : pyval A) : result (setter A) :=
  match v with
  | PConst c => Ok (as_constant c)
  | PCall _ => Ok (as_function (length h) "function_node_result")
  | PMethod j m =>
      match nth_error h j with
      | Some d => if dmem m (nd_setters d) then Ok (as_parameter j m) else Err ValueError
      | None => Err AttributeError
      end
  | PNode j =>
      match nth_error h j with
      | Some d =>
          if nd_fn d then
            Ok (as_function j (if smem name (nd_outs d) then name else "function_node_result"))
          else if j =? i then Err ValueError
          else if dmem name (nd_setters d) then Ok (as_parameter j name) else Err ValueError
      | None => Err AttributeError
      end
  end.
(** The parameters of node [i]. *)
Definition params (h : nheap) (i : nat) : option (dict (setter A)) :=
  option_map (fun n : node => nd_setters n) (nth_error h i).

(** [set_parameter] on a parameter that was not added: KeyError, no recipe changes. *)
Theorem C61_set_missing : forall h i n name v kwargs, nth_error h i = Some n ->
  dget name (nd_setters n) = None ->
  exists h', set_parameter none h i name v kwargs = (h', Some KeyError) /\
    forall k, params h' k = params h k.
Proof.
  intros h i n name v kw EN ED. unfold set_parameter, set_parameter_with. rewrite EN. simpl. rewrite ED.
  eexists. split; [reflexivity|]. intros k. unfold params. rewrite (nth_upd_some _ _ _ _ _ _ EN).
  destruct (k =? i) eqn:E; auto. apply Nat.eqb_eq in E; subst. now rewrite EN.
Qed.
(** [add_parameter] of an existing parameter, or of a name that is an attribute of the object:
    KeyError and nothing changes. *)
Theorem C61_add_existing : forall h i n name v grad kwargs, nth_error h i = Some n ->
  dget name (nd_setters n) <> None \/ In name (nd_attrs n) ->
  add_parameter none h i name v grad kwargs = (h, Some KeyError).
Proof.
  intros h i n name v grad kw EN HC. unfold add_parameter, add_parameter_with. rewrite EN.
  destruct (smem name (nd_attrs n) && negb (dmem name (nd_setters n))) eqn:E1; auto.
  destruct (dmem name (nd_setters n)) eqn:E2; auto. exfalso. rewrite andb_true_r in E1.
  destruct HC as [HC|HC].
  - unfold dmem in E2. destruct (dget name (nd_setters n)); congruence.
  - apply smem_In in HC. congruence.
Qed.

Lemma set_parameter_spec : forall wrap h i n name v h' r old, wrap_ok wrap ->
  (forall h f h' j r, wrap h f = (h', j, r) -> j = length h) ->
  nth_error h i = Some n -> dget name (nd_setters n) = Some old ->
  set_parameter_with wrap h i name v = (h', r) ->
  only i h h' /\
  match r with
  | None => exists s n', expected h i name v = Ok s /\ nth_error h' i = Some n' /\
      nd_setters n' = dset name s (nd_setters n) /\ nd_pos n' = None /\ nd_args n' = nd_args n /\
      nd_outs n' = nd_outs n /\ nd_label n' = nd_label n /\ nd_fn n' = nd_fn n /\ nd_func n' = nd_func n
  | Some e => (expected h i name v = Err e \/ exists f, v = PCall f) /\ params h' i = Some (nd_setters n)
  end.
Proof.
  intros wrap h i n name v h' r old WO WJ EN ED H. split; [eapply set_only; eauto|].
  unfold set_parameter_with in H. rewrite EN in H. simpl in H. rewrite ED in H.
  set (n1 := with_pos n None) in *. set (h1 := upd i n1 h) in *.
  assert (E1 : forall k, nth_error h1 k = if k =? i then Some n1 else nth_error h k)
    by (intros k; apply (nth_upd_some _ _ _ _ _ _ EN)).
  assert (Ei : nth_error h1 i = Some n1) by (rewrite E1, Nat.eqb_refl; auto).
  assert (L1 : length h1 = length h) by apply upd_length.
  assert (PUT : forall h2 s, nth_error h2 i = Some n1 -> exists n', nth_error (put_setter h2 i name s) i = Some n' /\
      nd_setters n' = dset name s (nd_setters n) /\ nd_pos n' = None /\ nd_args n' = nd_args n /\
      nd_outs n' = nd_outs n /\ nd_label n' = nd_label n /\ nd_fn n' = nd_fn n /\ nd_func n' = nd_func n).
  { intros h2 s E2. unfold put_setter. rewrite E2. rewrite (nth_upd_some _ _ _ _ _ _ E2), Nat.eqb_refl.
    eexists. split; [reflexivity|]. repeat split. }
  assert (PE : params h1 i = Some (nd_setters n)) by (unfold params; rewrite Ei; reflexivity).
  destruct v as [j m|f|j|c]; simpl.
  - rewrite E1 in H. destruct (j =? i) eqn:EJ.
    + apply Nat.eqb_eq in EJ; subst j. rewrite EN. simpl in H.
      destruct (dmem m (nd_setters n)); inversion H; subst; auto.
      eexists. destruct (PUT h1 (as_parameter i m) Ei) as (n' & P). exists n'. split; [reflexivity|exact P].
    + destruct (nth_error h j) as [d|]; [|inversion H; subst; auto].
      destruct (dmem m (nd_setters d)); inversion H; subst; auto.
      eexists. destruct (PUT h1 (as_parameter j m) Ei) as (n' & P). exists n'. split; [reflexivity|exact P].
  - destruct (wrap h1 f) as [[h2 j] [e|]] eqn:EW; assert (EX := WO _ _ _ _ _ EW); assert (EJ := WJ _ _ _ _ _ EW);
      destruct EX as [X1 X2]; assert (Ex : nth_error h2 i = Some n1)
      by (rewrite X2; auto; apply nth_error_Some; congruence); inversion H; subst.
    + split; [eauto|]. unfold params. rewrite Ex. reflexivity.
    + eexists. destruct (PUT h2 (as_function (length h1) "function_node_result") Ex) as (n' & P). exists n'.
      rewrite L1 in *. split; [reflexivity|exact P].
  - rewrite E1 in H. destruct (j =? i) eqn:EJ.
    + apply Nat.eqb_eq in EJ; subst j. rewrite EN. simpl in H.
      destruct (nd_fn n); [|inversion H; subst; auto]. inversion H; subst.
      eexists. edestruct (PUT h1) as (n' & P); [exact Ei|]. exists n'. split; [reflexivity|exact P].
    + destruct (nth_error h j) as [d|]; [|inversion H; subst; auto].
      destruct (nd_fn d).
      * inversion H; subst. eexists. edestruct (PUT h1) as (n' & P); [exact Ei|]. exists n'. split; [reflexivity|exact P].
      * destruct (dmem name (nd_setters d)); simpl in H; inversion H; subst; auto.
        eexists. edestruct (PUT h1) as (n' & P); [exact Ei|]. exists n'. split; [reflexivity|exact P].
  - inversion H; subst. eexists. edestruct (PUT h1) as (n' & P); [exact Ei|]. exists n'. split; [reflexivity|exact P].
Qed.
Lemma kw_index : forall kwargs h f h' j r, fn_new none h f None kwargs [] = (h', j, r) -> j = length h.
Proof. intros kw h f h' j r H. unfold fn_new in H. apply fn_new_extends in H; [tauto|apply wrap0_ok]. Qed.

(** [set_parameter] of an existing parameter: on success exactly that recipe is replaced, in
    place, by the one the value calls for; on failure no recipe of the node changes and the
    value was not acceptable. *)
Theorem C61_set_existing : forall h i n name v kwargs old h' r,
  nth_error h i = Some n -> dget name (nd_setters n) = Some old ->
  set_parameter none h i name v kwargs = (h', r) ->
  (forall k, k < length h -> k <> i -> nth_error h' k = nth_error h k) /\
  match r with
  | None => exists s d, expected h i name v = Ok s /\ params h' i = Some d /\
      map fst d = map fst (nd_setters n) /\ dget name d = Some s /\
      (forall x, x <> name -> dget x d = dget x (nd_setters n))
  | Some e => (expected h i name v = Err e \/ exists f, v = PCall f) /\ params h' i = Some (nd_setters n)
  end.
Proof.
  intros h i n name v kw old h' r EN ED H.
  destruct (set_parameter_spec _ h i n name v h' r old (wrap_kw_ok kw) (kw_index kw) EN ED H) as [[_ O] S].
  split; auto. destruct r as [e|]; auto. destruct S as (s & n' & S1 & S2 & S3 & _).
  exists s, (nd_setters n'). sp; auto.
  - unfold params. now rewrite S2.
  - rewrite S3. assert (K : In name (map fst (nd_setters n))).
    { apply dget_In in ED. apply in_map_iff. exists (name, old). auto. }
    clear -K. induction (nd_setters n) as [|[k x] d IH]; simpl in *; [tauto|].
    destruct (String.eqb name k) eqn:E; simpl; auto. f_equal. apply IH. destruct K; auto. subst.
    rewrite String.eqb_refl in E. discriminate.
  - rewrite S3, dget_dset, String.eqb_refl. auto.
  - intros x NE. rewrite S3, dget_dset. apply String.eqb_neq in NE. now rewrite NE.
Qed.
(** [add_parameter] of a new name: the parameter is appended after the existing ones, with the
    recipe the value calls for (and the requested gradient flag). *)
Theorem C61_add_new : forall h i n name v grad kwargs h',
  nth_error h i = Some n -> add_parameter none h i name v grad kwargs = (h', None) ->
  dget name (nd_setters n) = None /\
  (forall k, k < length h -> k <> i -> nth_error h' k = nth_error h k) /\
  exists s, expected (put_setter h i name undefined) i name v = Ok s /\
    params h' i = Some (nd_setters n ++ [(name, match grad with
       | Some b => mkSet (st_type s) (st_dep s) (st_src s) (st_const s) b
       | None => s end)]).
Proof.
  intros h i n name v grad kw h' EN H.
  assert (O := add_only _ _ _ _ _ _ _ _ (wrap_kw_ok kw) H). destruct O as [_ O].
  unfold add_parameter, add_parameter_with in H. rewrite EN in H.
  destruct (smem name (nd_attrs n) && negb (dmem name (nd_setters n))); [discriminate|].
  destruct (dmem name (nd_setters n)) eqn:EM; [discriminate|].
  assert (EDn : dget name (nd_setters n) = None) by (unfold dmem in EM; destruct (dget name (nd_setters n)); congruence).
  split; auto. split; auto.
  set (h1 := put_setter h i name undefined) in *.
  assert (E1 : nth_error h1 i = Some (with_setters n (dset name undefined (nd_setters n)))).
  { unfold h1, put_setter. rewrite EN. rewrite (nth_upd_some _ _ _ _ _ _ EN), Nat.eqb_refl. auto. }
  destruct (set_parameter_with _ h1 i name v) as [h2 [e|]] eqn:ES; [discriminate|].
  assert (ED1 : dget name (nd_setters (with_setters n (dset name undefined (nd_setters n)))) = Some (@undefined A))
    by (simpl; rewrite dget_dset, String.eqb_refl; auto).
  destruct (set_parameter_spec _ h1 i _ name v h2 None _ (wrap_kw_ok kw) (kw_index kw) E1 ED1 ES)
    as [_ (s & n2 & S1 & S2 & S3 & S4)]. simpl in S3.
  assert (DN : dset name s (dset name undefined (nd_setters n)) = nd_setters n ++ [(name, s)]).
  { clear -EDn. induction (nd_setters n) as [|[k x] d IH]; simpl in *; [now rewrite String.eqb_refl|].
    destruct (String.eqb name k) eqn:E; [discriminate|]. simpl. rewrite E. f_equal. auto. }
  rewrite DN in S3. exists s. split; auto.
  assert (DL : dget name (nd_setters n2) = Some s).
  { rewrite S3. clear -EDn. induction (nd_setters n) as [|[k x] d IH]; simpl in *; [now rewrite String.eqb_refl|].
    destruct (String.eqb name k); [discriminate|auto]. }
  destruct grad as [b|].
  - rewrite S2, DL in H. inversion H; subst. unfold params, put_setter. rewrite S2.
    rewrite (nth_upd_some _ _ _ _ _ _ S2), Nat.eqb_refl. simpl. f_equal. rewrite S3.
    clear -EDn. induction (nd_setters n) as [|[k x] d IH]; simpl in *; [now rewrite String.eqb_refl|].
    destruct (String.eqb name k); [discriminate|]. f_equal. auto.
  - inversion H; subst. unfold params. rewrite S2. simpl. now rewrite S3.
Qed.
(** A failing [add_parameter] of an unacceptable value is not undone: the name stays, with an
    undefined recipe, so that a second attempt is rejected as a duplicate. *)
Theorem C61_failed_add_leaves_undefined : forall h i n name v grad kwargs h' e,
  nth_error h i = Some n -> dget name (nd_setters n) = None -> ~ In name (nd_attrs n) ->
  add_parameter none h i name v grad kwargs = (h', Some e) ->
  params h' i = Some (nd_setters n ++ [(name, undefined)]).
Proof.
  intros h i n name v grad kw h' e EN EDn NA H. unfold add_parameter, add_parameter_with in H. rewrite EN in H.
  apply smem_false in NA. rewrite NA in H. simpl in H.
  assert (EM : dmem name (nd_setters n) = false) by (unfold dmem; now rewrite EDn). rewrite EM in H.
  set (h1 := put_setter h i name undefined) in *.
  assert (E1 : nth_error h1 i = Some (with_setters n (dset name undefined (nd_setters n)))).
  { unfold h1, put_setter. rewrite EN. rewrite (nth_upd_some _ _ _ _ _ _ EN), Nat.eqb_refl. auto. }
  assert (ED1 : dget name (nd_setters (with_setters n (dset name undefined (nd_setters n)))) = Some (@undefined A))
    by (simpl; rewrite dget_dset, String.eqb_refl; auto).
  destruct (set_parameter_with _ h1 i name v) as [h2 [e2|]] eqn:ES.
  - inversion H; subst. destruct (set_parameter_spec _ h1 i _ name v h' (Some e) _ (wrap_kw_ok kw) (kw_index kw) E1 ED1 ES)
      as [_ [_ S]]. rewrite S. simpl. f_equal. apply dset_new. now apply dget_None.
  - destruct grad, (nth_error h2 i) as [n2|]; try discriminate. destruct (dget name (nd_setters n2)); discriminate.
Qed.
(** The rejected values. *)
Theorem C61_rejected_values : forall h i n name kwargs old, nth_error h i = Some n ->
  dget name (nd_setters n) = Some old ->
  (nd_fn n = false -> snd (set_parameter none h i name (PNode i) kwargs) = Some ValueError) /\
  (forall j d, nth_error h j = Some d -> nd_fn d = false -> dget name (nd_setters d) = None ->
     snd (set_parameter none h i name (PNode j) kwargs) = Some ValueError) /\
  (forall j d m, nth_error h j = Some d -> dget m (nd_setters d) = None ->
     snd (set_parameter none h i name (PMethod j m) kwargs) = Some ValueError).
Proof.
  intros h i n name kw old EN ED.
  assert (G : forall v e, expected h i name v = Err e -> (forall f, v <> PCall f) ->
     snd (set_parameter none h i name v kw) = Some e).
  { intros v e HX NC. destruct (set_parameter none h i name v kw) as [h' r] eqn:E.
    destruct (set_parameter_spec _ h i n name v h' r old (wrap_kw_ok kw) (kw_index kw) EN ED E) as [_ S].
    destruct r as [e'|]; simpl.
    - destruct S as [[S|[f S]] _]; [congruence|]. exfalso. eapply NC; eauto.
    - destruct S as (s & n' & S & _). congruence. }
  sp.
  - intros FN. apply G; [|discriminate]. simpl. rewrite EN, FN, Nat.eqb_refl. auto.
  - intros j d EJ FN EM. apply G; [|discriminate]. simpl. rewrite EJ, FN. destruct (j =? i); auto.
    unfold dmem. now rewrite EM.
  - intros j d m EJ EM. apply G; [|discriminate]. simpl. rewrite EJ. unfold dmem. now rewrite EM.
Qed.
End P.

(** A model built with the API: a source with a constant, a linked parameter and a wrapped
    function; then one of them is replaced. *)
Definition ex_blank (cls : string) : node Z := renamed (mkNode None cls false None [] None "" [] [] ["compute"]).
Definition ex_build : nheap Z :=
  let none := Atom 0%Z in
  let h0 := [ex_blank "Src"; ex_blank "Base"] in
  let h1 := fst (add_parameter none h0 1 "z" (PConst (Atom 9%Z)) None []) in
  let h2 := fst (add_parameter none h1 0 "x" (PMethod 1 "z") None []) in
  fst (add_parameter none h2 0 "y" (PCall "sin") None [("a", PMethod 1 "z")]).
Example C61_applies :
  option_map (fun n : node Z => nd_setters n) (nth_error ex_build 0) =
    Some [("x", as_parameter 1 "z"); ("y", as_function 2 "function_node_result")] /\
  option_map (fun n : node Z => nd_setters n) (nth_error ex_build 2) =
    Some [("a", as_parameter 1 "z"); ("function_node_result", mkSet SCompute None "function_node_result" None false)] /\
  snd (add_parameter (Atom 0%Z) ex_build 0 "x" (PConst (Atom 1%Z)) None []) = Some KeyError /\
  snd (add_parameter (Atom 0%Z) ex_build 0 "compute" (PConst (Atom 1%Z)) None []) = Some KeyError /\
  snd (set_parameter (Atom 0%Z) ex_build 0 "q" (PConst (Atom 1%Z)) []) = Some KeyError /\
  params (fst (set_parameter (Atom 0%Z) ex_build 0 "x" (PConst (Atom 1%Z)) [])) 0 =
    Some [("x", as_constant (Atom 1%Z)); ("y", as_function 2 "function_node_result")].
Proof. vm_compute. repeat split. Qed.
Print Assumptions C61_set_missing.
Print Assumptions C61_add_existing.
Print Assumptions C61_set_existing.
Print Assumptions C61_add_new.
Print Assumptions C61_failed_add_leaves_undefined.
Print Assumptions C61_rejected_values.
