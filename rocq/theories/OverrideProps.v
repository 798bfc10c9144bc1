(** Property C120: overriding the outputs of function nodes (base_models.py 356-438 on a name in [outputs], 540-610, 885-971).
    [set_parameter] accepts the name of an output.  With one output the value given wins and the function is not called; with several,
    the function is called as long as one output is still computed, and its results replace the value given. *)
From Coq Require Import String List Bool Arith ZArith Lia Relations.
From Verif Require Import Base BaseFacts Numerals GraphStateModel GraphStateProofs GraphStateProofs2 GraphStateProofs4 GraphStateProps
  DependencyGraphModel NodeGraphModel NodeGraphProofs NodeSampleProofs NodeSampleProofs2 NodeSampleProofs3 NodeGraphProps.
Import ListNotations.
Open Scope string_scope.
Open Scope list_scope.
Open Scope nat_scope.
#[local] Hint Resolve wf_wk reachable_wf : core.

Section O.
Context {A W : Type}.
Notation sm := (@sm A W).
Variable func : W -> nat -> dict (value A) -> W * result (value A).

(** ** Runs keep the graph state well formed, on any heap *)
Definition kept (m m' : sm) : Prop :=
  wf (sm_gs m) -> wf (sm_gs m') /\ gs_n (sm_gs m') = gs_n (sm_gs m) /\
  forall nd vr, is_fixed (sm_gs m') nd vr = is_fixed (sm_gs m) nd vr.
Lemma kept_refl : forall m, kept m m.
Proof. intros m H; auto. Qed.
Lemma kept_trans : forall a b c, kept a b -> kept b c -> kept a c.
Proof.
  intros a b c H1 H2 H. destruct (H1 H) as (A1 & A2 & A3). destruct (H2 A1) as (B1 & B2 & B3). split; auto. split; [congruence|].
  intros. now rewrite B3.
Qed.
Lemma sm_set_kept : forall (m : sm) nd name v m', sm_set m nd name v = Ok m' -> kept m m'.
Proof.
  intros m nd name v m' H Wf. apply sm_set_frame in H as (_ & _ & _ & H).
  destruct (set_spec _ _ _ _ _ _ _ Wf H) as (W' & HN & _ & _ & _ & HF & _). split; auto. split; auto.
  intros. rewrite HF. simpl. apply orb_false_r.
Qed.
Lemma save_kept : forall (m : sm) nd outs r m', save_results m nd outs r = Ok m' -> kept m m'.
Proof.
  assert (F : forall l (m m' : sm) nd, fold_res (fun m ov => sm_set m nd (fst ov) (snd ov)) m l = Ok m' -> kept m m').
  { induction l as [|[o v] l IH]; simpl; intros m m' nd H; [injection H as <-; apply kept_refl|].
    destruct (sm_set m nd o v) as [m1|] eqn:E; [|discriminate].
    apply sm_set_kept in E. apply IH in H. eapply kept_trans; eauto. }
  intros m nd outs r m' H. rewrite save_alt in H.
  destruct outs as [|o [|o2 outs]].
  - destruct r as [|l]; [discriminate|]. destruct (negb _); [discriminate|]. eauto.
  - eapply sm_set_kept; eauto.
  - destruct r as [|l]; [discriminate|]. destruct (negb _); [discriminate|]. eauto.
Qed.
Lemma compute_kept : forall (m : sm) i n kw m', compute func m i n kw = Ok m' -> kept m m'.
Proof.
  intros m i n kw m' H. unfold compute in H. destruct (negb (nd_fn n)); [injection H as <-; apply kept_refl|].
  destruct (nd_func n); [|discriminate].
  destruct (build_inputs _ _ _ _) as [args|]; [|discriminate].
  destruct (func (sm_w m) i args) as [w [r|]]; [|discriminate].
  apply save_kept in H. exact H.
Qed.
Lemma fold_kept : forall (f : sm -> string * setter A -> result sm) l m m',
  (forall a ps b, In ps l -> f a ps = Ok b -> kept a b) -> fold_res f m l = Ok m' -> kept m m'.
Proof.
  intros f l. induction l as [|x l IH]; simpl; intros m m' HF H; [injection H as <-; apply kept_refl|].
  destruct (f m x) as [m1|] eqn:E; [|discriminate]. eapply kept_trans; [eapply HF; eauto|]. apply IH; auto. intros a ps b Hp. apply HF. now right.
Qed.
Lemma param_kept : forall rec h i n (m : sm) ps m', (forall a j b, rec a j = Ok b -> kept a b) ->
  sample_param rec h i n m ps = Ok m' -> kept m m'.
Proof.
  intros rec h i n m [name s] m' HR H. unfold sample_param in H.
  assert (X : forall m1, (match st_dep s with Some j => if j =? i then Ok m else rec m j | None => Ok m end) = Ok m1 -> kept m m1).
  { intros m1 E. destruct (st_dep s) as [j|]; [destruct (j =? i)|]; try (injection E as <-; apply kept_refl). eauto. }
  destruct (match st_dep s with Some j => if j =? i then Ok m else rec m j | None => Ok m end) as [m1|]; [|discriminate].
  specialize (X m1 eq_refl). eapply kept_trans; [exact X|]. clear X.
  destruct (st_type s).
  - discriminate.
  - destruct (st_const s) as [v|]; [|discriminate]. apply sm_set_kept in H. exact H.
  - destruct (st_dep s) as [j|]; [|discriminate]. destruct (nth_error h j) as [d|]; [|discriminate].
    destruct (gs_item _ _ _) as [v|]; [|discriminate]. apply sm_set_kept in H. exact H.
  - destruct (st_dep s) as [j|]; [|discriminate]. destruct (nth_error h j) as [d|]; [|discriminate].
    destruct (gs_item _ _ _) as [v|]; [|discriminate]. apply sm_set_kept in H. exact H.
  - injection H as <-. apply kept_refl.
Qed.
Lemma sample_kept : forall fuel h (m : sm) i m', sample_helper func fuel h m i = Ok m' -> kept m m'.
Proof.
  induction fuel as [|f IH]; intros h m i m' H; [discriminate|]. simpl in H.
  destruct (nth_error h i) as [n|]; [|discriminate].
  destruct (dget (nd_str n) (sm_seen m)) as [j|]; [destruct (j =? i); [injection H as <-; apply kept_refl|discriminate]|].
  destruct (fold_res _ _ _) as [m2|] eqn:E2; [|discriminate].
  apply fold_kept in E2; [|intros a ps b _; apply param_kept; eauto].
  destruct (if existsb _ (nd_setters n) then _ else _) as [m3|] eqn:E3; [|discriminate].
  injection H as <-. intros Wf. destruct (E2 Wf) as (A1 & A2 & A3). cbn [sm_gs] in A2, A3.
  destruct (existsb _ (nd_setters n)).
  - apply compute_kept in E3. destruct (E3 A1) as (B1 & B2 & B3). cbn [sm_gs sm_log] in B2, B3 |- *. split; auto. split; [congruence|]. intros. rewrite B3. apply A3.
  - injection E3 as <-. auto.
Qed.

(** ** Only computed parameters call functions *)
Definition computes_some (h : nheap A) (k : nat) : Prop :=
  exists n name s, nth_error h k = Some n /\ In (name, s) (nd_setters n) /\ st_type s = SCompute.
Definition calls_ok (h : nheap A) (m : sm) : Prop := forall k, In (ECompute k) (sm_tr m) -> computes_some h k.
Lemma sample_calls : forall fuel h (m : sm) i m', calls_ok h m -> sample_helper func fuel h m i = Ok m' -> calls_ok h m'.
Proof.
  induction fuel as [|f IH]; intros h m i m' HC H; [discriminate|]. simpl in H.
  destruct (nth_error h i) as [n|] eqn:EN; [|discriminate].
  destruct (dget (nd_str n) (sm_seen m)) as [j|]; [destruct (j =? i); [injection H as <-; auto|discriminate]|].
  destruct (fold_res _ _ _) as [m2|] eqn:E2; [|discriminate].
  assert (C2 : calls_ok h m2).
  { assert (C1 : calls_ok h (mkSM (sm_gs m) (dset (nd_str n) i (sm_seen m)) (sm_w m) (sm_tr m ++ [EEnter i]))).
    { intros k Hk. cbn [sm_tr] in Hk. apply in_app_or in Hk as [Hk|[Hk|[]]]; [auto|discriminate]. }
    revert E2 C1. generalize (mkSM (sm_gs m) (dset (nd_str n) i (sm_seen m)) (sm_w m) (sm_tr m ++ [EEnter i])).
    clear - IH. induction (nd_setters n) as [|[name s] l IHl]; simpl; intros ma E2 C1; [injection E2 as <-; auto|].
    destruct (match st_dep s with Some j => if j =? i then Ok ma else sample_helper func f h ma j | None => Ok ma end) as [mb|] eqn:EB; [|discriminate].
    assert (CB : calls_ok h mb).
    { destruct (st_dep s) as [j|]; [destruct (j =? i)|]; try (injection EB as <-; auto). eauto. }
    assert (SET : forall v mc, sm_set (sm_log mb (EAssign i name)) (nd_str n) name v = Ok mc -> calls_ok h mc).
    { intros v mc E k Hk. apply sm_set_frame in E as (_ & E & _). rewrite E in Hk. cbn [sm_log sm_tr] in Hk.
      apply in_app_or in Hk as [Hk|[Hk|[]]]; [auto|discriminate]. }
    destruct (st_type s).
    - discriminate.
    - destruct (st_const s) as [v|]; [|discriminate]. destruct (sm_set _ _ _ _) as [mc|] eqn:EC in E2; [|discriminate]. eauto.
    - destruct (st_dep s) as [j|]; [|discriminate]. destruct (nth_error h j) as [d|]; [|discriminate].
      destruct (gs_item _ _ _) as [v|]; [|discriminate]. destruct (sm_set _ _ _ _) as [mc|] eqn:EC in E2; [|discriminate]. eauto.
    - destruct (st_dep s) as [j|]; [|discriminate]. destruct (nth_error h j) as [d|]; [|discriminate].
      destruct (gs_item _ _ _) as [v|]; [|discriminate]. destruct (sm_set _ _ _ _) as [mc|] eqn:EC in E2; [|discriminate]. eauto.
    - eauto. }
  destruct (if existsb _ (nd_setters n) then _ else _) as [m3|] eqn:E3; [|discriminate].
  injection H as <-. intros k Hk. cbn [sm_log sm_tr] in Hk. apply in_app_or in Hk as [Hk|[Hk|[]]]; [|discriminate].
  destruct (existsb _ (nd_setters n)) eqn:EX.
  - apply compute_frame in E3 as (_ & E3). rewrite E3 in Hk. cbn [sm_log sm_tr] in Hk. apply in_app_or in Hk as [Hk|[Hk|[]]]; [auto|].
    injection Hk as <-. apply existsb_exists in EX as ([name s] & EX & EC). exists n, name, s. split; auto. split; auto.
    unfold is_compute in EC. cbn [snd] in EC. destruct (st_type s); congruence.
  - injection E3 as <-. auto.
Qed.
End O.

(** ** Nodes without computed parameters run like nodes without outputs *)
Definition blank {A} (n : node A) : node A :=
  if existsb (fun ps => is_compute (snd ps)) (nd_setters n) then n
  else mkNode (nd_label n) (nd_class n) (nd_fn n) (nd_func n) (nd_setters n) (nd_pos n) (nd_str n) (nd_args n) [] (nd_attrs n).
Lemma blank_same : forall A (n : node A), nd_label (blank n) = nd_label n /\ nd_str (blank n) = nd_str n /\ nd_setters (blank n) = nd_setters n /\
  nd_pos (blank n) = nd_pos n.
Proof. intros A n. unfold blank. destruct (existsb _ _); auto. Qed.
Lemma blank_renamed : forall A (n : node A) p, blank (renamed (with_pos n p)) = renamed (with_pos (blank n) p).
Proof. intros A n p. unfold blank. cbn [renamed with_str with_pos nd_setters]. destruct (existsb _ _); reflexivity. Qed.
Lemma map_upd : forall A B (f : A -> B) i x l, map f (upd i x l) = upd i (f x) (map f l).
Proof. intros A B f i x l. revert i. induction l as [|y l IH]; intros [|i]; simpl; auto. now rewrite IH. Qed.
Lemma blank_positions : forall A fuel (h : nheap A) seen i, positions fuel (map blank h) seen i =
  match positions fuel h seen i with Ok (h', s) => Ok (map blank h', s) | Err e => Err e end.
Proof.
  intros A fuel. induction fuel as [|f IH]; intros h seen i; [reflexivity|]. cbn [positions].
  destruct (existsb (Nat.eqb i) seen); [reflexivity|]. rewrite nth_error_map. destruct (nth_error h i) as [n|]; [|reflexivity]. cbn [option_map].
  destruct (blank_same A n) as (_ & _ & ES & _). rewrite ES, <- blank_renamed, <- map_upd.
  generalize (upd i (renamed (with_pos n (Some (length seen)))) h) as h1. generalize (seen ++ [i]) as seen1.
  induction (map snd (nd_setters n)) as [|s l IHl]; intros seen1 h1; cbn [fold_res]; [reflexivity|].
  destruct (st_dep s) as [j|]; [|apply IHl]. destruct (j =? i); [apply IHl|]. cbn [fst snd]. rewrite IH.
  destruct (positions f h1 seen1 j) as [[h2 s2]|]; [|reflexivity]. apply IHl.
Qed.
Lemma blank_start : forall A fuel (h : nheap A) root, start_heap fuel (map blank h) root =
  match start_heap fuel h root with Ok h' => Ok (map blank h') | Err e => Err e end.
Proof.
  intros A fuel h root. unfold start_heap. rewrite nth_error_map. destruct (nth_error h root) as [n|]; [|reflexivity]. cbn [option_map].
  destruct (blank_same A n) as (_ & _ & _ & EP). rewrite EP. destruct (nd_pos n); [reflexivity|]. rewrite blank_positions.
  destruct (positions fuel h [] root) as [[h2 s2]|]; reflexivity.
Qed.
Lemma fold_ext : forall S X (f g : S -> X -> result S) l s, (forall s x, f s x = g s x) -> fold_res f s l = fold_res g s l.
Proof. intros S X f g l. induction l as [|x l IH]; intros s H; [reflexivity|]. cbn [fold_res]. rewrite H. destruct (g s x); auto. Qed.
Lemma blank_sample : forall A W (func : W -> nat -> dict (value A) -> W * result (value A)) fuel (h : nheap A) m i,
  sample_helper func fuel (map blank h) m i = sample_helper func fuel h m i.
Proof.
  intros A W func fuel. induction fuel as [|f IH]; intros h m i; [reflexivity|]. cbn [sample_helper]. rewrite nth_error_map.
  destruct (nth_error h i) as [n|]; [|reflexivity]. cbn [option_map]. destruct (blank_same A n) as (_ & EN & ES & _). rewrite EN, ES.
  destruct (dget (nd_str n) (sm_seen m)); [reflexivity|].
  rewrite (fold_ext _ _ (sample_param (sample_helper func f (map blank h)) (map blank h) i (blank n)) (sample_param (sample_helper func f h) h i n)).
  - destruct (fold_res _ _ _) as [m2|]; [|reflexivity].
    destruct (existsb (fun ps => is_compute (snd ps)) (nd_setters n)) eqn:EX; [|reflexivity].
    unfold blank. now rewrite EX.
  - intros s [name st]. unfold sample_param. rewrite EN.
    assert (R : match st_dep st with Some j => if j =? i then Ok s else sample_helper func f (map blank h) s j | None => Ok s end =
                match st_dep st with Some j => if j =? i then Ok s else sample_helper func f h s j | None => Ok s end).
    { destruct (st_dep st) as [j|]; [|reflexivity]. destruct (j =? i); [reflexivity|apply IH]. }
    rewrite R. clear R. destruct (match st_dep st with Some j => if j =? i then Ok s else sample_helper func f h s j | None => Ok s end) as [mb|]; [|reflexivity].
    destruct (st_type st); auto; destruct (st_dep st) as [j|]; auto; rewrite nth_error_map; destruct (nth_error h j) as [d|]; auto; cbn [option_map];
      destruct (blank_same A d) as (_ & ED & _); now rewrite ED.
Qed.
Lemma blank_run : forall A W (func : W -> nat -> dict (value A) -> W * result (value A)) fuel (h : nheap A) root g num w,
  sample_parameters func fuel (map blank h) root g num w =
  match sample_parameters func fuel h root g num w with Ok (h', m) => Ok (map blank h', m) | Err e => Err e end.
Proof.
  intros. unfold sample_parameters. rewrite blank_start. destruct (start_heap fuel h root) as [h'|]; [|reflexivity].
  destruct (start_state g num); [|reflexivity]. rewrite blank_sample. now destruct (sample_helper _ _ _ _ _).
Qed.
Lemma blank_depends : forall A (h : nheap A) i j, depends (map blank h) i j <-> depends h i j.
Proof.
  intros A h i j. unfold depends. split; intros (n & name & s & EN & HI & HS).
  - rewrite nth_error_map in EN. destruct (nth_error h i) as [n0|]; [|discriminate]. injection EN as <-.
    destruct (blank_same A n0) as (_ & _ & ES & _). rewrite ES in HI. exists n0, name, s. auto.
  - exists (blank n), name, s. rewrite nth_error_map, EN. destruct (blank_same A n) as (_ & _ & ES & _). rewrite ES. auto.
Qed.
Lemma blank_reaches : forall A (h : nheap A) i j, reaches h i j -> reaches (map blank h) i j.
Proof.
  intros A h i j H. induction H as [x y H|x|x y z _ IH1 _ IH2]; [apply rt_step; now apply blank_depends|apply rt_refl|eapply rt_trans; eauto].
Qed.

(** ** The properties *)
(** No parameter of the node is computed any more: every output was set by the user. *)
Definition all_set {A} (n : node A) : Prop := forall name s, In (name, s) (nd_setters n) -> st_type s <> SCompute.
(** Well formed, except that the outputs of a function node may all have been set. *)
Definition well_formed_or_set {A} (h : nheap A) : Prop := forall k n, nth_error h k = Some n ->
  NoDup (map fst (nd_setters n)) /\ NoDup (nd_outs n) /\
  (all_set n \/ forall o, In o (nd_outs n) -> exists s, In (o, s) (nd_setters n) /\ st_type s = SCompute).

(** Setting the only output of a function node (or all outputs) works: the value set is in every sample, and the function is not
    called. *)
Theorem C120_all_outputs_set : forall A W (func : W -> nat -> dict (value A) -> W * result (value A)) fuel h root g num w h' m,
  well_formed_or_set h -> valid_given g -> sample_parameters func fuel h root g num w = Ok (h', m) ->
  forall k n, reaches h root k -> nth_error h' k = Some n -> all_set n ->
    ~ In (ECompute k) (sm_tr m) /\
    forall name s, In (name, s) (nd_setters n) -> (~ exists v, given_value g (nd_str n) name v) ->
      match st_type s with
      | SConst => exists v, st_const s = Some v /\ reads (sm_gs m) (nd_str n) name (if Z.eqb num 1 then v else Arr (repeat v (Z.to_nat num)))
      | SModel | SFunc => exists j d v, st_dep s = Some j /\ nth_error h' j = Some d /\
          reads (sm_gs m) (nd_str n) name v /\ reads (sm_gs m) (nd_str d) (st_src s) v
      | SCompute | SUndef => False
      end.
Proof.
  intros A W func fuel h root g num w h' m WF VG H k n HR EN AS. split.
  - intros HI. unfold sample_parameters in H. destruct (start_heap fuel h root) as [h1|]; [|discriminate].
    destruct (start_state g num) as [s0|]; [|discriminate]. destruct (sample_helper func fuel h1 (mkSM s0 [] w []) root) as [m1|] eqn:EM; [|discriminate].
    injection H as -> <-. apply sample_calls in EM; [|intros x []]. destruct (EM k HI) as (n' & name & s & E1 & E2 & E3).
    rewrite EN in E1. injection E1 as <-. exact (AS _ _ E2 E3).
  - intros name s HI NG.
    assert (WF' : well_formed (map blank h)).
    { intros x y E. rewrite nth_error_map in E. destruct (nth_error h x) as [n0|] eqn:E0; [|discriminate]. injection E as <-.
      destruct (WF _ _ E0) as (W1 & W2 & W3). destruct (blank_same A n0) as (_ & _ & ES & _). rewrite ES. split; auto.
      unfold blank. destruct (existsb (fun ps => is_compute (snd ps)) (nd_setters n0)) eqn:EX.
      - split; auto. destruct W3 as [W3|W3]; auto. exfalso. apply existsb_exists in EX as ([a b] & X1 & X2).
        unfold is_compute in X2. cbn [snd] in X2. specialize (W3 a b X1). destruct (st_type b); congruence.
      - split; [constructor|intros o []]. }
    assert (H2 : sample_parameters func fuel (map blank h) root g num w = Ok (map blank h', m)) by (rewrite blank_run, H; reflexivity).
    destruct (blank_same A n) as (_ & BN & BS & _).
    destruct (C19_linked_agree A W func fuel _ root g num w _ m WF' VG H2 k (blank n) name s) as [_ C]; auto.
    + now apply blank_reaches.
    + now rewrite nth_error_map, EN.
    + now rewrite BS.
    + now rewrite BN.
    + rewrite BN in C. specialize (AS _ _ HI). destruct (st_type s); auto; destruct C as (j & d & v & C1 & C2 & C3 & C4);
        rewrite nth_error_map in C2; destruct (nth_error h' j) as [d0|] eqn:ED; try discriminate; injection C2 as <-;
        destruct (blank_same A d0) as (_ & DN & _); rewrite DN in C4; exists j, d0, v; auto.
Qed.
(** One of several outputs set, another one still computed, in any graph: the function of the sampled node is called, and its results are what every
    output has, however it was set. *)
Theorem C120_one_output_set_refuted : forall A W (func : W -> nat -> dict (value A) -> W * result (value A)) fuel (h : nheap A) root g num w h' m n,
  valid_given g -> sample_parameters func fuel h root g num w = Ok (h', m) -> nth_error h' root = Some n ->
  nd_fn n = true -> NoDup (nd_outs n) -> length (nd_outs n) <> 1 -> (exists o s, In (o, s) (nd_setters n) /\ st_type s = SCompute) ->
  exists args w1 w2 l, func w1 root args = (w2, Ok (Arr l)) /\ length l = length (nd_outs n) /\
    forall p o x, nth_error (nd_outs n) p = Some o -> nth_error l p = Some x -> (~ exists v, given_value g (nd_str n) o v) ->
      exists u, expands (Z.to_nat num) x u /\ reads (sm_gs m) (nd_str n) o u.
Proof.
  intros A W func fuel h root g num w h' m n VG H EN FN ND NL (o0 & st & HI & HT). unfold sample_parameters in H.
  destruct (start_heap fuel h root) as [h1|]; [|discriminate].
  destruct (start_state g num) as [s0|] eqn:ES; [|discriminate].
  destruct (sample_helper func fuel h1 (mkSM s0 [] w []) root) as [m1|] eqn:EM; [|discriminate]. injection H as -> <-.
  destruct (start_state_spec _ _ _ _ VG ES) as (S1 & S2 & S3 & S4 & S5 & S6).
  destruct fuel as [|f]; [discriminate|]. cbn [sample_helper] in EM. rewrite EN in EM. cbn [sm_seen dget] in EM.
  destruct (fold_res _ _ _) as [m2|] eqn:E2; [|discriminate].
  apply fold_kept in E2; [|intros a ps b _; apply param_kept; intros; eapply sample_kept; eauto].
  destruct (E2 S1) as (A1 & A2 & A3). cbn [sm_gs] in A2, A3.
  assert (EX : existsb (fun ps => is_compute (snd ps)) (nd_setters n) = true).
  { apply existsb_exists. exists (o0, st). split; auto. unfold is_compute. simpl. now rewrite HT. }
  rewrite EX in EM. destruct (compute func (sm_log m2 (ECompute root)) root n []) as [m3|] eqn:E3; [|discriminate]. injection EM as <-.
  unfold compute in E3. rewrite FN in E3. cbn [negb] in E3. destruct (nd_func n); [|discriminate].
  destruct (build_inputs _ _ _ _) as [args|]; [|discriminate]. cbn [sm_w sm_log] in E3.
  destruct (func (sm_w m2) root args) as [w2 [r|]] eqn:EF; [|discriminate].
  unfold save_results in E3. cbn [sm_gs sm_log] in E3.
  destruct (save_results_gs (sm_gs m2) (nd_str n) (nd_outs n) r) as [gg [e|]] eqn:ER; [discriminate|]. injection E3 as <-.
  destruct r as [a|l].
  { unfold save_results_gs in ER. destruct (nd_outs n) as [|x [|y z]]; [discriminate| |discriminate]. simpl in NL. lia. }
  destruct (C22_outputs_in_order A _ _ _ _ _ A1 ND NL ER) as (L & V & _).
  exists args, (sm_w m2), w2, l. split; auto. split; auto. intros p o x Ho Hx NG. cbn [sm_gs sm_log].
  rewrite <- S2, <- A2. apply (V p o x Ho Hx). intros X. apply fixed_iff in X. rewrite A3 in X. apply NG. apply S4. now apply fixed_iff.
Qed.
(** Through the public interface: a node with outputs lo and hi; [set_parameter("lo", 5)] is accepted, and samples have lo = 1, as computed. *)
Definition two_outputs : nheap Z :=
  [ex_node None "FunctionNode" true [("a", as_constant (Atom 3%Z)); ("lo", as_compute_output undefined "lo"); ("hi", as_compute_output undefined "hi")]
     ["a"] ["lo"; "hi"]].
Definition two_results (w : unit) (i : nat) (args : dict (value Z)) : unit * result (value Z) := (w, Ok (Arr [Atom 1%Z; Atom 2%Z])).
Definition one_output : nheap Z :=
  [ex_node None "FunctionNode" true [("a", as_constant (Atom 3%Z)); ("lo", as_compute_output undefined "lo")] ["a"] ["lo"]].
(** The model after the call of [set_parameter], and the run of it. *)
Definition set_lo (h : nheap Z) : nheap Z := fst (set_parameter (Atom 0%Z) h 0 "lo" (PConst (Atom 5%Z)) []).
Definition two_set := Eval vm_compute in set_lo two_outputs.
Definition one_set := Eval vm_compute in set_lo one_output.
Lemma two_set_eq : set_parameter (Atom 0%Z) two_outputs 0 "lo" (PConst (Atom 5%Z)) [] = (two_set, None).
Proof. vm_compute. reflexivity. Qed.
Lemma one_set_eq : set_parameter (Atom 0%Z) one_output 0 "lo" (PConst (Atom 5%Z)) [] = (one_set, None).
Proof. vm_compute. reflexivity. Qed.
Definition two_run := Eval vm_compute in sample_parameters two_results 3 two_set 0 GNone 1 tt.
Definition one_run := Eval vm_compute in sample_parameters two_results 3 one_set 0 GNone 1 tt.
Lemma two_run_eq : sample_parameters two_results 3 two_set 0 GNone 1 tt = two_run.
Proof. vm_compute. reflexivity. Qed.
Lemma one_run_eq : sample_parameters two_results 3 one_set 0 GNone 1 tt = one_run.
Proof. vm_compute. reflexivity. Qed.
Example C120_override_ignored : exists h1 h' m,
  set_parameter (Atom 0%Z) two_outputs 0 "lo" (PConst (Atom 5%Z)) [] = (h1, None) /\
  sample_parameters two_results 3 h1 0 GNone 1 tt = Ok (h', m) /\ reads (sm_gs m) "FunctionNode:f_0" "lo" (Atom 1%Z).
Proof. exists two_set. do 2 eexists. split; [exact two_set_eq|]. split; [rewrite two_run_eq; reflexivity|]. vm_compute. reflexivity. Qed.
Example C120_override_works : exists h1 h' m n,
  set_parameter (Atom 0%Z) one_output 0 "lo" (PConst (Atom 5%Z)) [] = (h1, None) /\ well_formed_or_set h1 /\
  sample_parameters two_results 3 h1 0 GNone 1 tt = Ok (h', m) /\ nth_error h' 0 = Some n /\ all_set n /\
  reads (sm_gs m) "FunctionNode:f_0" "lo" (Atom 5%Z).
Proof.
  exists one_set. do 3 eexists. split; [exact one_set_eq|]. split.
  { intros [|[|k]] n E; [|discriminate|discriminate]. injection E as <-. cbn.
    split; [repeat constructor; simpl; intuition discriminate|]. split; [repeat constructor; simpl; tauto|]. left. intros name s [X|[X|[]]]; injection X as <- <-; discriminate. }
  split; [rewrite one_run_eq; reflexivity|]. split; [reflexivity|]. split; [|vm_compute; reflexivity].
  intros name s [X|[X|[]]]; injection X as <- <-; discriminate.
Qed.
Print Assumptions C120_all_outputs_set.
Print Assumptions C120_one_output_set_refuted.
