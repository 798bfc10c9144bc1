(** Property C94: sampling from bilby's priors. *)
From Coq Require Import ZArith String List Bool Arith Lia.
From Verif Require Import Base BaseFacts GraphStateModel GraphStateProofs GraphStateProofs2 GraphStateProofs3 GraphStateProofs4 GraphStateProps NodeGraphModel NodeGraphProps ExternalModel.
Import ListNotations.
Open Scope string_scope.
Open Scope list_scope.
Open Scope nat_scope.

(** ** Vocabulary *)
(** What a parameter that was drawn as [xs] looks like in a state of [n] samples: the number for one sample, the array otherwise. *)
Definition stored_as {A} (n : nat) (xs : list A) (v : value A) : Prop :=
  (n = 1 /\ exists x, xs = [x] /\ v = Atom x) \/ (n <> 1 /\ v = Arr (map Atom xs)).
(** bilby's contract: a distribution asked for [n] values returns [n] values. *)
Definition draws_n {A G} (p : prior A G) : Prop := match p with PDist draw => forall n g, length (fst (draw n g)) = n | PConstraint => True end.
Definition is_dist {A G} (p : prior A G) : Prop := match p with PDist _ => True | PConstraint => False end.

Section P.
Context {A G : Type}.
Implicit Types (p : dict (prior A G)) (st : gs A).

Lemma sample_keys : forall p n g k, In k (dkeys (fst (prior_sample p n g))) -> In k (dkeys p).
Proof.
  induction p as [|[k' [draw|]] p IH]; intros n g k; cbn [prior_sample]; auto.
  - destruct (draw n g) as [xs g1]. specialize (IH n g1). destruct (prior_sample p n g1) as [d g2]. cbn [fst dkeys map] in *. intros [->|H]; [now left|right; now apply IH].
  - intros H. right. exact (IH _ _ _ H).
Qed.
Lemma sample_get : forall p n g k, NoDup (dkeys p) -> (forall k x, In (k, x) p -> draws_n x) ->
  (forall draw, dget k p = Some (PDist draw) -> exists xs, dget k (fst (prior_sample p n g)) = Some xs /\ length xs = n) /\
  (dget k p = Some PConstraint -> dget k (fst (prior_sample p n g)) = None).
Proof.
  induction p as [|[k' x] p IH]; intros n g k ND HD; [split; discriminate|]. unfold dkeys in ND. cbn [map fst] in ND. inversion ND as [|? ? N1 N2]; subst.
  assert (HD' : forall k x, In (k, x) p -> draws_n x) by (intros; eapply HD; right; eauto).
  assert (NS : forall n g, dget k' (fst (prior_sample p n g)) = None) by (intros; apply dget_None; intros H; apply N1; exact (sample_keys _ _ _ _ H)).
  assert (HX : draws_n x) by (apply (HD k'); now left).
  destruct x as [draw|]; cbn [prior_sample dget].
  - pose proof (HX n g) as L. destruct (draw n g) as [xs g1]. cbn [fst] in L. specialize (IH n g1 k N2 HD'). destruct (prior_sample p n g1) as [d g2]. cbn [fst dget] in *.
    destruct (String.eqb_spec k k') as [->|N]; [|exact IH]. split; [|discriminate]. intros dr _. now exists xs.
  - destruct (String.eqb_spec k k') as [->|N]; [|now apply IH]. split; [discriminate|]. intros _. apply NS.
Qed.

(** ** The loop over the outputs *)
Definition pick (n : nat) (d : dict (list A)) (k : string) : value A :=
  match dget k d with Some xs => if n =? 1 then match xs with x :: _ => Atom x | [] => Arr [] end else Arr (map Atom xs) | None => Arr [] end.
Lemma store_ok : forall node d outs st acc, wf st -> (forall k, In k outs -> exists xs, dget k d = Some xs /\ length xs = gs_n st) ->
  bilby_store node outs d st acc = match gs_set_all st (map (fun k => (node, k, pick (gs_n st) d k)) outs) false with
    | (st', None) => (st', Ok (acc ++ map (pick (gs_n st) d) outs)) | (st', Some e) => (st', Err e) end.
Proof.
  intros node d. induction outs as [|k outs IH]; intros st acc W H; cbn [bilby_store map gs_set_all]; [now rewrite app_nil_r|].
  destruct (H k (or_introl eq_refl)) as (xs & E & L). unfold pick at 1. rewrite E.
  assert (P1 : exists v, pick (gs_n st) d k = v /\ (if gs_n st =? 1 then match xs with x :: _ => Ok (Atom x) | [] => Err IndexError end else Ok (Arr (map Atom xs))) = Ok v).
  { unfold pick. rewrite E. pose proof (wf_n _ W). destruct (gs_n st =? 1) eqn:E1; eauto. apply Nat.eqb_eq in E1. destruct xs as [|x xs]; [cbn in L; lia|eauto]. }
  destruct P1 as (v & P1 & P2). rewrite P2. unfold pick in P1. rewrite E in P1. rewrite P1.
  destruct (gs_set st node k v false) as [s1 [e|]] eqn:ES; [reflexivity|].
  destruct (set_spec _ _ _ _ _ _ _ W ES) as (W1 & N1 & _). rewrite IH; auto; [|intros k' Hk; rewrite N1; apply H; now right].
  rewrite N1. destruct (gs_set_all s1 _ false) as [s2 [e|]]; auto. f_equal. f_equal. rewrite <- app_assoc. cbn [app]. unfold pick at 2. rewrite E, P1. reflexivity.
Qed.
Lemma store_app : forall node d o1 o2 st acc, bilby_store node (o1 ++ o2) d st acc =
  match bilby_store node o1 d st acc with (st', Ok acc') => bilby_store node o2 d st' acc' | (st', Err e) => (st', Err e) end.
Proof.
  intros node d. induction o1 as [|k o1 IH]; intros o2 st acc; cbn [app bilby_store]; auto. destruct (dget k d); auto. destruct (if gs_n st =? 1 then _ else _); auto.
  destruct (gs_set st node k _ false) as [s [e|]]; auto.
Qed.
Lemma pick_stored : forall n d k xs, 1 <= n -> dget k d = Some xs -> length xs = n -> stored_as n xs (pick n d k).
Proof.
  intros n d k xs Hn E L. unfold stored_as, pick. rewrite E. destruct (Nat.eqb_spec n 1) as [->|N]; [left|right]; split; auto.
  destruct xs as [|x [|y xs]]; cbn in L; try lia. now exists x.
Qed.
Lemma pick_storable : forall n d k xs, 1 <= n -> dget k d = Some xs -> length xs = n -> store_value n (pick n d k) = Ok (pick n d k).
Proof.
  intros n d k xs Hn E L. unfold store_value, pick. rewrite E. destruct (n =? 1) eqn:E1; auto. rewrite map_length, L, Nat.eqb_refl. reflexivity.
Qed.
(** Values for several parameters of one node, all of them drawn: they end up in the state and nothing else changes. *)
Lemma set_picks : forall node d outs st, wf st -> NoDup outs -> has_dot node = false -> (forall k, In k outs -> has_dot k = false) ->
  (forall k, In k outs -> exists xs, dget k d = Some xs /\ length xs = gs_n st) ->
  exists st', gs_set_all st (map (fun k => (node, k, pick (gs_n st) d k)) outs) false = (st', None) /\ wf st' /\ gs_n st' = gs_n st /\
    (forall nd k v, reads st' nd k v <-> if (String.eqb nd node && smem k outs && negb (is_fixed st nd k))%bool then v = pick (gs_n st) d k else reads st nd k v).
Proof.
  intros node d outs st W ND HN HK HD. set (l := map (fun k => (node, k, pick (gs_n st) d k)) outs).
  pose proof (wf_n _ W) as Wn.
  assert (NDl : NoDup (map fst l)).
  { unfold l. rewrite map_map. cbn [fst]. apply FinFun.Injective_map_NoDup; auto. intros a b E. congruence. }
  destruct (set_all_ok l st false W) as (s' & E).
  { intros e He. unfold l in He. apply in_map_iff in He. destruct He as (k & <- & Hk). cbn [fst snd]. split; [|split]; auto.
    destruct (HD k Hk) as (xs & E & L). exists (pick (gs_n st) d k). now apply (pick_storable _ _ _ xs). }
  exists s'. split; [exact E|]. destruct (set_all_spec _ _ _ _ W E NDl) as (W' & N' & D' & L' & F' & S'). split; auto. split; auto.
  intros nd k v. assert (RS : reads st nd k v <-> look st nd k = Some v) by (unfold reads; apply reads_look; now apply wf_wk).
  unfold reads at 1. rewrite reads_look by (now apply wf_wk). rewrite L'.
  destruct (String.eqb_spec nd node) as [->|NN]; cbn [andb].
  - destruct (smem k outs) eqn:SM; cbn [andb].
    + apply smem_In in SM. rewrite (find_key l node k (pick (gs_n st) d k)); auto; [|unfold l; apply in_map_iff; now exists k].
      destruct (is_fixed st node k); cbn [negb]; [tauto|]. cbn [snd]. destruct (HD k SM) as (xs & E1 & L1). rewrite (pick_storable _ _ _ xs) by auto. split; congruence.
    + rewrite find_no_key; [tauto|]. unfold l. rewrite map_map. cbn [fst]. intros HI. apply in_map_iff in HI. destruct HI as (k' & E1 & Hk). injection E1 as ->.
      apply smem_In in Hk. congruence.
  - rewrite find_no_key; [tauto|]. unfold l. rewrite map_map. cbn [fst]. intros HI. apply in_map_iff in HI. destruct HI as (k' & E1 & Hk). congruence.
Qed.
(** The first outputs of a bilby node. *)
Lemma store_all : forall node d outs st acc, wf st -> NoDup outs -> has_dot node = false -> (forall k, In k outs -> has_dot k = false) ->
  (forall k, In k outs -> exists xs, dget k d = Some xs /\ length xs = gs_n st) ->
  exists st', bilby_store node outs d st acc = (st', Ok (acc ++ map (pick (gs_n st) d) outs)) /\ wf st' /\ gs_n st' = gs_n st /\
    (forall nd k v, reads st' nd k v <-> if (String.eqb nd node && smem k outs && negb (is_fixed st nd k))%bool then v = pick (gs_n st) d k else reads st nd k v).
Proof.
  intros node d outs st acc W ND HN HK HD. rewrite store_ok by auto. destruct (set_picks node d outs st W ND HN HK HD) as (s' & E & R). rewrite E. exists s'. split; [reflexivity|exact R].
Qed.

(** ** C94 *)
(** A node made from a non-empty prior whose entries are all distributions: every parameter of the prior becomes a parameter of the node, with the
    values bilby drew for it (the same draws that are returned, in the prior's order); values given in advance and all other parameters of the
    state stay. *)
Theorem C94_samples : forall (seeded : Z -> G) (RNG : Type) node p seed g0 g1 b st (rng : option RNG) g,
  reachable st -> NoDup (dkeys p) -> (forall k x, In (k, x) p -> is_dist x /\ draws_n x) ->
  has_dot node = false -> (forall k, In k (dkeys p) -> has_dot k = false) ->
  bilby_init seeded node p seed g0 = (g1, Ok b) ->
  exists st' vs, bilby_compute b st rng g = (snd (prior_sample p (gs_n st) g), (st', Ok vs)) /\ gs_n st' = gs_n st /\
    length vs = length p /\
    (forall i k, nth_error (dkeys p) i = Some k -> exists xs v, In (k, xs) (fst (prior_sample p (gs_n st) g)) /\ length xs = gs_n st /\
       stored_as (gs_n st) xs v /\ nth_error vs i = Some v /\ (~ fixed_in st node k -> reads st' node k v)) /\
    (forall nd k v, nd <> node \/ ~ In k (dkeys p) \/ fixed_in st nd k -> (reads st' nd k v <-> reads st nd k v)).
Proof.
  intros seeded RNG node p seed g0 g1 b st rng g R ND HP HN HK HI. assert (W := reachable_wf _ R). pose proof (wf_n _ W) as Wn.
  unfold bilby_init in HI. destruct (length p =? 0); [discriminate|]. apply pair_equal_spec in HI. destruct HI as [_ HI]. injection HI as <-.
  unfold bilby_compute. cbn [b_name b_prior b_outputs]. set (d := fst (prior_sample p (gs_n st) g)).
  destruct (prior_sample p (gs_n st) g) as [d' g'] eqn:EP. cbn [fst snd] in *. subst d.
  assert (HD : forall k, In k (dkeys p) -> exists xs, dget k d' = Some xs /\ length xs = gs_n st).
  { intros k Hk. apply dget_keys in Hk. destruct (dget k p) as [x|] eqn:E; [|congruence]. destruct (HP k x (dget_In _ _ _ _ E)) as [H1 H2]. destruct x as [draw|]; [|easy].
    destruct (sample_get p (gs_n st) g k ND) as [S1 _]; [intros; eapply HP; eauto|]. rewrite EP in S1. exact (S1 _ E). }
  destruct (store_all node d' (dkeys p) st [] W ND HN HK HD) as (st' & E & W' & N' & RD). cbn [app] in E. exists st', (map (pick (gs_n st) d') (dkeys p)). rewrite E.
  split; auto. split; auto. split; [unfold dkeys; now rewrite !map_length|]. split.
  - intros i k Hi. destruct (HD k (nth_error_In _ _ Hi)) as (xs & E1 & L1). exists xs, (pick (gs_n st) d' k). split; [now apply dget_In|]. split; auto. split; [now apply pick_stored|].
    split; [now apply map_nth_error|]. intros NF. rewrite RD. apply fixed_false in NF. rewrite NF, String.eqb_refl. cbn [andb negb].
    assert (SM : smem k (dkeys p) = true) by (apply smem_In; exact (nth_error_In _ _ Hi)). rewrite SM. reflexivity.
  - intros nd k v H. rewrite RD. destruct (String.eqb_spec nd node) as [->|]; cbn [andb]; [|tauto]. destruct (smem k (dkeys p)) eqn:SM; cbn [andb]; [|tauto].
    destruct (is_fixed st node k) eqn:EF; cbn [negb]; [tauto|]. apply smem_In in SM. apply fixed_false in EF. tauto.
Qed.
(** A prior with a constraint can be made into a node, but sampling it always raises KeyError, after the parameters before the first constraint
    have been written to the state. *)
Theorem C94_constraint_refused : forall (seeded : Z -> G) (RNG : Type) node p1 c p2 seed g0 st (rng : option RNG) g,
  reachable st -> NoDup (dkeys (p1 ++ (c, PConstraint) :: p2)) -> (forall k x, In (k, x) p1 -> is_dist x) ->
  (forall k x, In (k, x) (p1 ++ (c, PConstraint) :: p2) -> draws_n x) ->
  has_dot node = false -> (forall k, In k (dkeys p1) -> has_dot k = false) ->
  exists g1 b st', bilby_init seeded node (p1 ++ (c, PConstraint) :: p2) seed g0 = (g1, Ok b) /\
    snd (bilby_compute b st rng g) = (st', Err KeyError) /\
    (forall k, In k (dkeys p1) -> ~ fixed_in st node k -> exists xs v, In (k, xs) (fst (prior_sample (p1 ++ (c, PConstraint) :: p2) (gs_n st) g)) /\
       stored_as (gs_n st) xs v /\ reads st' node k v) /\
    (forall nd k v, nd <> node \/ ~ In k (dkeys p1) \/ fixed_in st nd k -> (reads st' nd k v <-> reads st nd k v)).
Proof.
  intros seeded RNG node p1 c p2 seed g0 st rng g R ND HD1 HD HN HK. assert (W := reachable_wf _ R). pose proof (wf_n _ W) as Wn. set (p := p1 ++ (c, PConstraint) :: p2) in *.
  assert (KP : dkeys p = dkeys p1 ++ c :: dkeys p2) by (unfold dkeys, p; now rewrite map_app).
  unfold bilby_init. assert (L : (length p =? 0) = false) by (apply Nat.eqb_neq; unfold p; rewrite app_length; cbn [length]; lia). rewrite L.
  exists (match seed with Some s => bilby_set_seed seeded s g0 | None => g0 end), (mkB node p (dkeys p)). unfold bilby_compute. cbn [b_name b_prior b_outputs]. destruct (prior_sample p (gs_n st) g) as [d' g'] eqn:EP. cbn [fst snd].
  assert (NC : ~ In c (dkeys p1)). { rewrite KP in ND. apply NoDup_remove_2 in ND. intros H. apply ND. apply in_or_app. now left. }
  assert (ND1 : NoDup (dkeys p1)).
  { rewrite KP in ND. clear -ND. induction (dkeys p1) as [|k l IH]; [constructor|]. cbn [app] in ND. inversion ND as [|? ? N1 N2]; subst. constructor; auto. intros H. apply N1. apply in_or_app. now left. }
  assert (HX : forall k, In k (dkeys p1) -> exists xs, dget k d' = Some xs /\ length xs = gs_n st).
  { intros k Hk. pose proof Hk as Hk'. apply dget_keys in Hk. destruct (dget k p1) as [x|] eqn:E; [|congruence]. pose proof (HD1 k x (dget_In _ _ _ _ E)) as H1. destruct x as [draw|]; [|easy].
    destruct (sample_get p (gs_n st) g k ND HD) as [S1 _]. rewrite EP in S1. apply (S1 draw). apply In_dget; auto. unfold p. apply in_or_app. left. now apply dget_In. }
  assert (HC : dget c d' = None).
  { destruct (sample_get p (gs_n st) g c ND HD) as [_ S2]. rewrite EP in S2. apply S2. apply In_dget; auto. unfold p. apply in_or_app. right. now left. }
  destruct (store_all node d' (dkeys p1) st [] W ND1 HN HK HX) as (st' & E & W' & N' & RD). exists st'. split; [reflexivity|]. split.
  - rewrite KP, store_app, E. cbn [bilby_store]. now rewrite HC.
  - split.
    + intros k Hk NF. destruct (HX k Hk) as (xs & E1 & L1). exists xs, (pick (gs_n st) d' k). split; [now apply dget_In|]. split; [now apply pick_stored|]. rewrite RD.
      apply fixed_false in NF. rewrite NF, String.eqb_refl. apply smem_In in Hk. now rewrite Hk.
    + intros nd k v H. rewrite RD. destruct (String.eqb_spec nd node) as [->|]; cbn [andb]; [|tauto]. destruct (smem k (dkeys p1)) eqn:SM; cbn [andb]; [|tauto].
      destruct (is_fixed st node k) eqn:EF; cbn [negb]; [tauto|]. apply smem_In in SM. apply fixed_false in EF. tauto.
Qed.

(** ** Histories: what a process does with bilby nodes *)
Inductive bop {RNG : Type} :=
| BInit (node : string) (p : dict (prior A G)) (seed : option Z)
| BSeed (seed : Z)
| BCompute (b : bnode A G) (st : gs A) (rng : option RNG).
Arguments bop RNG : clear implicits.
Inductive bout :=
| OutInit (r : result (bnode A G))
| OutSeed
| OutCompute (st : gs A) (r : result (list (value A))).
Definition bstep {RNG} (seeded : Z -> G) (g : G) (o : bop RNG) : G * bout :=
  match o with
  | BInit node p seed => let (g', r) := bilby_init seeded node p seed g in (g', OutInit r)
  | BSeed s => (bilby_set_seed seeded s g, OutSeed)
  | BCompute b st rng => let '(g', (st', r)) := bilby_compute b st rng g in (g', OutCompute st' r)
  end.
Fixpoint brun {RNG} (seeded : Z -> G) (g : G) (l : list (bop RNG)) : list bout :=
  match l with
  | [] => []
  | o :: l' => let (g', r) := bstep seeded g o in r :: brun seeded g' l'
  end.
(** The operation with its generator argument removed. *)
Definition no_rng {RNG} (o : bop RNG) : bop RNG := match o with BCompute b st _ => BCompute b st None | o => o end.

(** After a seed has been set, by [set_seed] or by making a node, everything that follows is determined by the seed: what happened before and the
    generators passed to [compute] do not matter. *)
Theorem C94_seed_determines : forall (RNG : Type) (seeded : Z -> G) (h1 h2 : list (bop RNG)) o l1 l2 g1 g2,
  (exists s, o = BSeed s) \/ (exists node p s, o = BInit node p (Some s)) -> map no_rng l1 = map no_rng l2 ->
  skipn (length h1) (brun seeded g1 (h1 ++ o :: l1)) = skipn (length h2) (brun seeded g2 (h2 ++ o :: l2)).
Proof.
  intros RNG seeded h1 h2 o l1 l2 g1 g2 HO HL.
  assert (SK : forall (h : list (bop RNG)) g l, exists g', skipn (length h) (brun seeded g (h ++ l)) = brun seeded g' l).
  { clear HO HL h1 h2 l1 l2 g1 g2 o. induction h as [|x h IH]; intros g l; [exists g; reflexivity|]. cbn [length app brun]. destruct (bstep seeded g x) as [g' r]. cbn [skipn]. apply IH. }
  destruct (SK h1 g1 (o :: l1)) as (ga & ->). destruct (SK h2 g2 (o :: l2)) as (gb & ->).
  assert (RN : forall (l l' : list (bop RNG)) g, map no_rng l = map no_rng l' -> brun seeded g l = brun seeded g l').
  { clear HO HL SK h1 h2 l1 l2 g1 g2 o ga gb. induction l as [|x l IH]; destruct l' as [|y l']; intros g H; try discriminate; auto. cbn [map] in H. injection H as H1 H2. cbn [brun].
    assert (E : bstep seeded g x = bstep seeded g y) by (destruct x, y; cbn [no_rng] in H1; try discriminate; try (injection H1; intros; subst; reflexivity); reflexivity).
    rewrite E. destruct (bstep seeded g y). f_equal. now apply IH. }
  cbn [brun]. assert (E : bstep seeded ga o = bstep seeded gb o).
  { destruct HO as [(s & ->)|(node & p & s & ->)]; [reflexivity|]. cbn [bstep]. unfold bilby_init, bilby_set_seed. now destruct (length p =? 0). }
  rewrite E. destruct (bstep seeded gb o). f_equal. now apply RN.
Qed.
(** The generator is shared: making another node with a seed, even one that is refused for its empty prior, reseeds every node. *)
Theorem C94_last_seed_wins : forall (RNG : Type) (seeded : Z -> G) node1 p1 s1 node2 p2 s2 b1 st (rng : option RNG) g,
  nth_error (brun seeded g [BInit node1 p1 (Some s1); BInit node2 p2 (Some s2); BCompute b1 st rng]) 2 =
  nth_error (brun seeded g [BInit node1 p1 (Some s2); BCompute b1 st rng]) 1.
Proof.
  intros. cbn [brun bstep]. unfold bilby_init, bilby_set_seed. destruct (length p1 =? 0), (length p2 =? 0); reflexivity.
Qed.
(** An empty prior is refused. *)
Theorem C94_empty_refused : forall (seeded : Z -> G) node p seed g, snd (bilby_init seeded node p seed g) = Err ValueError <-> p = [].
Proof.
  intros. unfold bilby_init. destruct (Nat.eqb_spec (length p) 0) as [E|E]; cbn [snd]; split; intros H; try discriminate; auto; [now apply length_zero_iff_nil|now subst].
Qed.
End P.

(** ** Concrete cases *)
(** A generator that counts: seeded with its seed, each number drawn is the next integer. *)
Definition ex_uniform (lo : Z) : prior Z Z := PDist (fun n g => (map (fun i => (lo + g + Z.of_nat i)%Z) (seq 0 n), (g + Z.of_nat n)%Z)).
Definition ex_prior : dict (prior Z Z) := [("mass", ex_uniform 100); ("spin", ex_uniform 500)].
Definition ex_start : gs Z := gs_fresh 2.
Definition ex_b : bnode Z Z := mkB "gw" ex_prior ["mass"; "spin"].
Example C94_samples_case : reachable ex_start /\ NoDup (dkeys ex_prior) /\ (forall k x, In (k, x) ex_prior -> is_dist x /\ draws_n x) /\
  bilby_init (fun z => z) "gw" ex_prior (Some 7%Z) 0%Z = (7%Z, Ok ex_b) /\
  exists st', bilby_compute ex_b ex_start (None : option unit) 7%Z = (11%Z, (st', Ok [Arr [Atom 107%Z; Atom 108%Z]; Arr [Atom 509%Z; Atom 510%Z]])) /\
    reads st' "gw" "spin" (Arr [Atom 509%Z; Atom 510%Z]).
Proof.
  split; [exists 2, []; split; [lia|reflexivity]|]. split; [repeat constructor; cbn; intuition discriminate|]. split.
  - intros k x [H|[H|[]]]; injection H as <- <-; (split; [exact I|]); intros n g; cbn [fst]; rewrite map_length, seq_length; reflexivity.
  - split; [reflexivity|]. eexists. split; reflexivity.
Qed.
(** Two nodes with seeds of their own: the samples of the first are not those it gives alone. *)
Theorem C94_own_seed_refuted : exists (seeded : Z -> Z) node1 (p1 : dict (prior Z Z)) (s1 : Z) node2 (p2 : dict (prior Z Z)) s2 (b1 : bnode Z Z) (st : gs Z) g,
  bilby_init seeded node1 p1 (Some s1) g = (seeded s1, Ok b1) /\
  nth_error (brun seeded g [BInit node1 p1 (Some s1); BInit node2 p2 (Some s2); BCompute b1 st (None : option unit)]) 2 <>
  nth_error (brun seeded g [BInit node1 p1 (Some s1); BCompute b1 st (None : option unit)]) 1.
Proof.
  exists (fun z => z), "gw", ex_prior, 7%Z, "other", ex_prior, 8%Z, ex_b, ex_start, 0%Z. split; [reflexivity|]. cbv. discriminate.
Qed.
(** The same numpy generator passed twice: different samples. *)
Theorem C94_numpy_generator_refuted : exists (seeded : Z -> Z) (b : bnode Z Z) (st : gs Z) (rng : unit) g,
  nth_error (brun seeded g [BCompute b st (Some rng); BCompute b st (Some rng)]) 0 <> nth_error (brun seeded g [BCompute b st (Some rng); BCompute b st (Some rng)]) 1.
Proof. exists (fun z => z), ex_b, ex_start, tt, 0%Z. cbv. discriminate. Qed.
Example C94_constraint_case : exists st', snd (bilby_compute (mkB "gw" [("mass", ex_uniform 100); ("q", PConstraint); ("spin", ex_uniform 500)] ["mass"; "q"; "spin"]) ex_start (None : option unit) 7%Z) = (st', Err KeyError) /\
  reads st' "gw" "mass" (Arr [Atom 107%Z; Atom 108%Z]).
Proof. eexists. split; reflexivity. Qed.
Print Assumptions C94_samples.
Print Assumptions C94_constraint_refused.
Print Assumptions C94_seed_determines.
