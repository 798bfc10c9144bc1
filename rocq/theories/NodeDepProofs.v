(** Lemmas about [build_dependency_graph] (base_models.py 655-715, 907-930). *)
From Coq Require Import String Ascii List Bool Arith ZArith Lia Relations.
From Verif Require Import Base BaseFacts Numerals GraphStateModel DependencyGraphModel DependencyGraphProps
  NodeGraphModel NodeGraphProofs.
Import ListNotations.
Open Scope string_scope.
Open Scope list_scope.
Open Scope nat_scope.

Section P.
Context {A : Type}.
Variable render : option (value A) -> string.
Notation node := (node A).
Notation nheap := (nheap A).
Notation setter := (setter A).
Notation edges := (list (string * string)).

Definition own_source (k : nat) (s : setter) : Prop := st_dep s = None \/ st_dep s = Some k.

(** The edges that the recipes of node [k] call for. *)
Definition edge_of (h : nheap) (k : nat) (a b : string) : Prop :=
  exists n name s, nth_error h k = Some n /\ In (name, s) (nd_setters n) /\ b = full_name (nd_str n) name /\
    ((exists j d, st_dep s = Some j /\ j <> k /\ nth_error h j = Some d /\ a = full_name (nd_str d) (st_src s)) \/
     (st_type s = SConst /\ own_source k s /\ exists c, a = const_name c (render (st_const s))) \/
     (nd_fn n = true /\ st_type s = SCompute /\ exists x, In x (nd_args n) /\ a = full_name (nd_str n) x)).

Definition param_done (h : nheap) (k : nat) (n : node) (g : dgraph) (E : edges) (ps : string * setter) : Prop :=
  let '(name, s) := ps in
  let b := full_name (nd_str n) name in
  In b (dg_params g) /\
  (forall j, st_dep s = Some j -> j <> k ->
     exists d, nth_error h j = Some d /\ In (full_name (nd_str d) (st_src s), b) E) /\
  (st_type s = SConst -> own_source k s -> exists c, In (const_name c (render (st_const s)), b) E).
Definition outs_done (n : node) (E : edges) (ps : string * setter) : Prop :=
  st_type (snd ps) = SCompute -> forall x, In x (nd_args n) ->
    In (full_name (nd_str n) x, full_name (nd_str n) (fst ps)) E.
Definition node_done (h : nheap) (k : nat) (g : dgraph) (E : edges) : Prop :=
  exists n, nth_error h k = Some n /\
    (forall ps, In ps (nd_setters n) -> param_done h k n g E ps) /\
    (nd_fn n = true -> forall ps, In ps (nd_setters n) -> outs_done n E ps).
Definition visited (h : nheap) (g : dgraph) (j : nat) : Prop :=
  exists d, nth_error h j = Some d /\ (nd_setters d = [] \/ In (nd_str d) (dg_nodes g)).
(** Names of parameters. *)
Definition name_of (h : nheap) (k : nat) (p : string) : Prop :=
  (exists n name s, nth_error h k = Some n /\ In (name, s) (nd_setters n) /\ p = full_name (nd_str n) name) \/
  (exists n name s c, nth_error h k = Some n /\ In (name, s) (nd_setters n) /\ st_type s = SConst /\
     p = const_name c (render (st_const s))).

(** Growth of graph and edges. *)
Definition gle (g g' : dgraph) : Prop :=
  (forall p, In p (dg_params g) -> In p (dg_params g')) /\
  (forall s, In s (dg_nodes g) -> In s (dg_nodes g')).
Lemma gle_refl : forall g, gle g g.
Proof. split; auto. Qed.
Lemma gle_trans : forall a b c, gle a b -> gle b c -> gle a c.
Proof. intros a b c [H1 H2] [H3 H4]. split; auto. Qed.

Lemma param_done_mono : forall h k n g g' E E' ps, gle g g' -> (forall e, In e E -> In e E') ->
  param_done h k n g E ps -> param_done h k n g' E' ps.
Proof.
  intros h k n g g' E E' [name s] G HE (P1 & P2 & P3). split; [apply G; auto|]. split.
  - intros j H1 H2. destruct (P2 j H1 H2) as (d & D1 & D2). exists d; auto.
  - intros H1 H2. destruct (P3 H1 H2) as [c Hc]. exists c; auto.
Qed.
Lemma node_done_mono : forall h k g g' E E', gle g g' -> (forall e, In e E -> In e E') ->
  node_done h k g E -> node_done h k g' E'.
Proof.
  intros h k g g' E E' G HE (n & N1 & N2 & N3). exists n. sp; auto.
  - intros. eapply param_done_mono; eauto.
  - intros HF ps HI HT x Hx. apply HE. exact (N3 HF ps HI HT x Hx).
Qed.
Lemma visited_mono : forall h g g' j, gle g g' -> visited h g j -> visited h g' j.
Proof. intros h g g' j [_ G] (d & D1 & [D2|D2]); exists d; auto. Qed.

(** The primitive operations. *)
Lemma add_param_step : forall g E name nd, dg_wf g E ->
  dg_wf (dg_add_parameter g name (Some nd)) E /\ gle g (dg_add_parameter g name (Some nd)) /\
  In (full_name nd name) (dg_params (dg_add_parameter g name (Some nd))) /\
  (forall p, In p (dg_params (dg_add_parameter g name (Some nd))) -> p = full_name nd name \/ In p (dg_params g)) /\
  (forall s, In s (dg_nodes (dg_add_parameter g name (Some nd))) <-> s = nd \/ In s (dg_nodes g)).
Proof.
  intros g E name nd W. assert (W' := apply_wf g E (DGParam name (Some nd)) W). rewrite app_nil_r in W'. simpl in W'.
  assert (PF : forall p, In p (dg_params (dg_add_parameter g name (Some nd))) <-> p = full_name nd name \/ In p (dg_params g)).
  { intros p. unfold dg_add_parameter. rewrite params_full. simpl. tauto. }
  assert (NF : forall s, In s (dg_nodes (dg_add_parameter g name (Some nd))) <-> s = nd \/ In s (dg_nodes g)).
  { intros s. unfold dg_add_parameter, dg_add_full. simpl.
    destruct (smem _ (dg_params g)); simpl; apply In_sadd. }
  sp; auto.
  - split; intros x Hx; [apply PF|apply NF]; auto.
  - apply PF; auto.
  - intros p Hp. apply PF; auto.
Qed.
Lemma add_const_step : forall g E v g' c, dg_wf g E -> dg_add_constant g v = (g', c) ->
  dg_wf g' E /\ gle g g' /\ c = const_name (dg_consts g) v /\
  (forall p, In p (dg_params g') -> p = c \/ In p (dg_params g)) /\ dg_nodes g' = dg_nodes g.
Proof.
  intros g E v g' c W H. unfold dg_add_constant in H. inversion H; subst.
  assert (W' := apply_wf g E (DGConst v) W). rewrite app_nil_r in W'. simpl in W'.
  assert (PF := fun p => params_full (mkDG (dg_params g) (dg_nodes g) (dg_in g) (dg_out g) (S (dg_consts g))) (const_name (dg_consts g) v) p).
  simpl in PF.
  assert (NF : dg_nodes (dg_add_full (mkDG (dg_params g) (dg_nodes g) (dg_in g) (dg_out g) (S (dg_consts g))) (const_name (dg_consts g) v)) = dg_nodes g).
  { unfold dg_add_full. simpl. destruct (smem _ _); auto. }
  sp; auto.
  - split; intros x Hx; [apply PF; auto|now rewrite NF].
  - intros p Hp. apply PF; auto.
Qed.
Lemma add_edge_step : forall g E a b g', dg_wf g E -> dg_add_edge g a b = Ok g' ->
  dg_wf g' (E ++ [(a, b)]) /\ dg_params g' = dg_params g /\ dg_nodes g' = dg_nodes g.
Proof.
  intros g E a b g' W H. assert (W' := apply_wf g E (DGEdge a b) W). simpl in W'. rewrite H in W'. simpl in W'.
  split; auto. unfold dg_add_edge in H. destruct (_ || _); [discriminate|].
  destruct (dappend b a (dg_in g)); [|discriminate]. destruct (dappend a b (dg_out g)); inversion H; auto.
Qed.

Definition dep_post (h : nheap) (i : nat) (g g' : dgraph) (E E' : edges) : Prop :=
  dg_wf g' E' /\ gle g g' /\ (forall e, In e E -> In e E') /\
  (forall a b, In (a, b) E' -> In (a, b) E \/ exists k, reach h i k /\ edge_of h k a b) /\
  (forall p, In p (dg_params g') -> In p (dg_params g) \/ exists k, reach h i k /\ name_of h k p) /\
  (forall s, In s (dg_nodes g') -> In s (dg_nodes g) \/
     exists k n, reach h i k /\ nth_error h k = Some n /\ nd_str n = s /\ node_done h k g' E' /\
       forall j, In j (ndeps h k) -> visited h g' j).

Lemma dep_post_refl : forall h i g E, dg_wf g E -> dep_post h i g g E E.
Proof. intros. unfold dep_post. sp; auto using gle_refl. Qed.

Lemma dep_spec : forall fuel h g i g' E, dg_wf g E -> dep_helper render fuel h g i = Ok g' ->
  exists E', dep_post h i g g' E E' /\ visited h g' i.
Proof.
  induction fuel as [|f IH]; intros h g i g' E W H; [discriminate|]. cbn [dep_helper] in H.
  destruct (nth_error h i) as [n|] eqn:EN; [|discriminate].
  destruct (smem (nd_str n) (dg_nodes g)) eqn:ES.
  { inversion H; subst. exists E. split; [now apply dep_post_refl|]. exists n. split; auto. right. now apply smem_In. }
  (* the loop over the parameters; node i itself is not done yet *)
  set (post := fun (ga gb : dgraph) (Ea Eb : edges) =>
     dg_wf gb Eb /\ gle ga gb /\ (forall e, In e Ea -> In e Eb) /\
     (forall a b, In (a, b) Eb -> In (a, b) Ea \/ exists k, reach h i k /\ edge_of h k a b) /\
     (forall p, In p (dg_params gb) -> In p (dg_params ga) \/ exists k, reach h i k /\ name_of h k p) /\
     (forall s, In s (dg_nodes gb) -> In s (dg_nodes ga) \/ s = nd_str n \/
       exists k n', reach h i k /\ nth_error h k = Some n' /\ nd_str n' = s /\ node_done h k gb Eb /\
         forall j, In j (ndeps h k) -> visited h gb j)).
  assert (PT : forall ga gb gc Ea Eb Ec, post ga gb Ea Eb -> post gb gc Eb Ec -> post ga gc Ea Ec).
  { intros ga gb gc Ea Eb Ec (P1 & P2 & P3 & P4 & P5 & P6) (Q1 & Q2 & Q3 & Q4 & Q5 & Q6). unfold post. sp; auto.
    - eapply gle_trans; eauto.
    - intros a b HI. destruct (Q4 _ _ HI); auto.
    - intros p HI. destruct (Q5 _ HI); auto.
    - intros s HI. destruct (Q6 _ HI) as [Q|[Q|Q]]; auto. destruct (P6 _ Q) as [R|[R|R]]; auto.
      destruct R as (k & n' & R1 & R2 & R3 & R4 & R5). right; right. exists k, n'. sp; auto.
      + eapply node_done_mono; eauto.
      + intros j Hj. eapply visited_mono; eauto. }
  assert (STEP : forall name s ga Ea gb, In (name, s) (nd_setters n) -> dg_wf ga Ea ->
     dep_param render (dep_helper render f h) h i n ga (name, s) = Ok gb ->
     exists Eb, post ga gb Ea Eb /\ In (nd_str n) (dg_nodes gb) /\ param_done h i n gb Eb (name, s) /\
       (forall j, st_dep s = Some j -> j <> i -> visited h gb j)).
  { intros name s ga Ea gb HI Wa HS. unfold dep_param in HS.
    destruct (add_param_step ga Ea name (nd_str n) Wa) as (A1 & A2 & A3 & A4 & A5).
    set (g1 := dg_add_parameter ga name (Some (nd_str n))) in *.
    assert (PN : name_of h i (full_name (nd_str n) name)) by (left; exists n, name, s; auto).
    assert (P1 : post ga g1 Ea Ea).
    { unfold post. sp; auto.
      - intros p Hp. destruct (A4 _ Hp) as [->|]; auto. right. exists i. split; [apply rt_refl|auto].
      - intros st Hs. apply A5 in Hs. destruct Hs; auto. }
    assert (N1 : In (nd_str n) (dg_nodes g1)) by (apply A5; auto).
    assert (OWN : forall gb, (match st_type s with
        | SConst => let '(g2, c) := dg_add_constant g1 (render (st_const s)) in dg_add_edge g2 c (full_name (nd_str n) name)
        | _ => Ok g1 end) = Ok gb -> own_source i s ->
       exists Eb, post ga gb Ea Eb /\ In (nd_str n) (dg_nodes gb) /\ param_done h i n gb Eb (name, s) /\
       (forall j, st_dep s = Some j -> j <> i -> visited h gb j)).
    { intros gc HO OS.
      assert (VAC : forall g, forall j, st_dep s = Some j -> j <> i -> visited h g j).
      { intros g0 j Hj NE. destruct OS; congruence. }
      assert (VAC2 : forall E0, forall j, st_dep s = Some j -> j <> i ->
         exists d, nth_error h j = Some d /\ In (full_name (nd_str d) (st_src s), full_name (nd_str n) name) E0).
      { intros E0 j Hj NE. destruct OS; congruence. }
      destruct (st_type s) eqn:ET; try (inversion HO; subst; exists Ea; sp; auto; unfold param_done; sp; auto; congruence).
      destruct (dg_add_constant g1 (render (st_const s))) as [g2 c] eqn:EC.
      destruct (add_const_step _ _ _ _ _ A1 EC) as (B1 & B2 & B3 & B4 & B5).
      destruct (add_edge_step _ _ _ _ _ B1 HO) as (C1 & C2 & C3).
      exists (Ea ++ [(c, full_name (nd_str n) name)]). sp; auto.
      - eapply PT; [exact P1|]. unfold post. sp; auto.
        + eapply gle_trans; [exact B2|]. split; [rewrite C2|rewrite C3]; auto.
        + intros e He. rewrite in_app_iff. auto.
        + intros a b Hab. apply in_app_iff in Hab. destruct Hab as [|[Q|[]]]; auto. inversion Q; subst.
          right. exists i. split; [apply rt_refl|]. exists n, name, s. sp; auto. right; left. sp; auto. eauto.
        + intros p Hp. rewrite C2 in Hp. destruct (B4 _ Hp) as [->|]; auto. right. exists i. split; [apply rt_refl|].
          right. exists n, name, s, (dg_consts g1). auto.
        + intros st Hs. rewrite C3, B5 in Hs. auto.
      - rewrite C3, B5. auto.
      - unfold param_done. sp; auto.
        + rewrite C2. apply B2. auto.
        + intros _ _. exists (dg_consts g1). rewrite <- B3, in_app_iff. right. now left. }
    destruct (st_dep s) as [j|] eqn:ED.
    2:{ apply OWN; auto. left; auto. }
    destruct (j =? i) eqn:EJ.
    { apply Nat.eqb_eq in EJ. subst j. apply OWN; auto. right; auto. }
    apply Nat.eqb_neq in EJ. destruct (nth_error h j) as [d|] eqn:EDn; [|discriminate].
    unfold bind in HS. destruct (dep_helper render f h g1 j) as [g2|] eqn:ER; [|discriminate].
    destruct (IH h g1 j g2 Ea A1 ER) as (E2 & (D1 & D2 & D3 & D4 & D5 & D6) & D7).
    destruct (add_edge_step _ _ _ _ _ D1 HS) as (C1 & C2 & C3).
    assert (IJ : reach h i j).
    { apply rt_step. unfold ndeps. rewrite EN. unfold sdeps. apply in_flat_map. exists s. split.
      - apply in_map_iff. exists (name, s); auto.
      - rewrite ED. apply Nat.eqb_neq in EJ. rewrite EJ. now left. }
    assert (G2b : gle g2 gb) by (split; [rewrite C2|rewrite C3]; auto).
    exists (E2 ++ [(full_name (nd_str d) (st_src s), full_name (nd_str n) name)]). sp.
    - eapply PT; [exact P1|]. unfold post. sp; auto.
      + eapply gle_trans; eauto.
      + intros e He. rewrite in_app_iff. auto.
      + intros a b Hab. apply in_app_iff in Hab. destruct Hab as [Q|[Q|[]]].
        * destruct (D4 _ _ Q) as [|(k & K1 & K2)]; auto. right. exists k. split; auto. eapply rt_trans; eauto.
        * inversion Q; subst. right. exists i. split; [apply rt_refl|]. exists n, name, s. sp; auto.
          left. exists j, d. auto.
      + intros p Hp. rewrite C2 in Hp. destruct (D5 _ Hp) as [|(k & K1 & K2)]; auto. right. exists k. split; auto.
        eapply rt_trans; eauto.
      + intros st Hs. rewrite C3 in Hs. destruct (D6 _ Hs) as [|(k & n' & K1 & K2 & K3 & K4 & K5)]; auto.
        right; right. exists k, n'. sp; auto.
        * eapply rt_trans; eauto.
        * eapply node_done_mono; [exact G2b| |exact K4]. intros e He. rewrite in_app_iff; auto.
        * intros q Hq. eapply visited_mono; eauto.
    - rewrite C3. apply D2. auto.
    - unfold param_done. sp.
      + apply G2b, D2. auto.
      + intros j' Hj NE. assert (j' = j) by congruence. subst. exists d. split; auto.
        rewrite in_app_iff. right. now left.
      + intros _ [Q|Q]; congruence.
    - intros j' Hj NE. assert (j' = j) by congruence. subst. eapply visited_mono; eauto. }
  assert (L : forall ps ga Ea gb, (forall p, In p ps -> In p (nd_setters n)) -> dg_wf ga Ea ->
     fold_res (dep_param render (dep_helper render f h) h i n) ga ps = Ok gb ->
     exists Eb, post ga gb Ea Eb /\ (ps = [] \/ In (nd_str n) (dg_nodes gb)) /\
       (forall p, In p ps -> param_done h i n gb Eb p) /\
       (forall p j, In p ps -> st_dep (snd p) = Some j -> j <> i -> visited h gb j)).
  { induction ps as [|[name s] ps IHp]; intros ga Ea gb HP Wa HF; cbn [fold_res] in HF.
    - inversion HF; subst. exists Ea. sp; auto; try (simpl; tauto). unfold post. sp; auto using gle_refl.
    - destruct (dep_param render (dep_helper render f h) h i n ga (name, s)) as [gc|] eqn:EP; [|discriminate].
      destruct (STEP name s ga Ea gc (HP _ (or_introl eq_refl)) Wa EP) as (Ec & P1 & P2 & P3 & P4).
      destruct (IHp gc Ec gb) as (Eb & Q1 & Q2 & Q3 & Q4); auto.
      { intros p Hp. apply HP. now right. }
      { apply P1. }
      destruct Q1 as (R1 & R2 & R3 & R4). exists Eb. sp.
      + eapply PT; [exact P1|]. unfold post. auto.
      + right. apply R2. auto.
      + intros p [<-|Hp]; auto. eapply param_done_mono; eauto.
      + intros p j [<-|Hp] Hj NE; [|eauto]. simpl in Hj. eapply visited_mono; eauto. }
  destruct (fold_res (dep_param render (dep_helper render f h) h i n) g (nd_setters n)) as [g2|] eqn:EF; [|discriminate].
  destruct (L (nd_setters n) g E g2 ltac:(auto) W EF) as (E2 & P1 & P2 & P3 & P4).
  (* the edges from arguments to outputs *)
  assert (O : exists E3, post g2 g' E2 E3 /\ dg_nodes g' = dg_nodes g2 /\
     (nd_fn n = true -> forall ps, In ps (nd_setters n) -> outs_done n E3 ps)).
  { assert (W2 : dg_wf g2 E2) by apply P1.
    assert (PO : forall ga gb Ea a b, dg_wf ga Ea -> dg_add_edge ga a b = Ok gb -> edge_of h i a b ->
       post ga gb Ea (Ea ++ [(a, b)]) /\ dg_nodes gb = dg_nodes ga).
    { intros ga gb Ea a b Wa HE HJ. destruct (add_edge_step _ _ _ _ _ Wa HE) as (C1 & C2 & C3).
      split; auto. unfold post. sp; auto.
      - split; [rewrite C2|rewrite C3]; auto.
      - intros e He. rewrite in_app_iff; auto.
      - intros x y Hab. apply in_app_iff in Hab. destruct Hab as [|[Q|[]]]; auto. inversion Q; subst.
        right. exists i. split; [apply rt_refl|auto].
      - intros p Hp. rewrite C2 in Hp. auto.
      - intros s Hs. rewrite C3 in Hs. auto. }
    destruct (nd_fn n) eqn:EFN.
    2:{ inversion H; subst. exists E2. sp; auto; [|congruence]. unfold post. sp; auto using gle_refl. }
    assert (LA : forall o s, In (o, s) (nd_setters n) -> st_type s = SCompute -> forall args ga Ea gb,
       (forall x, In x args -> In x (nd_args n)) -> dg_wf ga Ea ->
       fold_res (fun g a => dg_add_edge g (full_name (nd_str n) a) (full_name (nd_str n) o)) ga args = Ok gb ->
       exists Eb, post ga gb Ea Eb /\ dg_nodes gb = dg_nodes ga /\
         forall x, In x args -> In (full_name (nd_str n) x, full_name (nd_str n) o) Eb).
    { intros o s HI HT. induction args as [|x args IHa]; intros ga Ea gb HX Wa HF; cbn [fold_res] in HF.
      - inversion HF; subst. exists Ea. sp; auto; [|simpl; tauto]. unfold post. sp; auto using gle_refl.
      - destruct (dg_add_edge ga _ _) as [gc|] eqn:EE; [|discriminate].
        destruct (PO ga gc Ea _ _ Wa EE) as [Q1 Q2].
        { exists n, o, s. sp; auto. right; right. sp; auto. exists x. split; auto. apply HX. now left. }
        destruct (IHa gc _ gb ltac:(intros; apply HX; now right) (proj1 Q1) HF) as (Eb & R1 & R2 & R3).
        exists Eb. sp.
        + eapply PT; eauto.
        + congruence.
        + intros y [<-|Hy]; auto. apply R1. rewrite in_app_iff. right. now left. }
    assert (LO : forall ps ga Ea gb, (forall p, In p ps -> In p (nd_setters n)) -> dg_wf ga Ea ->
       fold_res (dep_outputs n) ga ps = Ok gb ->
       exists Eb, post ga gb Ea Eb /\ dg_nodes gb = dg_nodes ga /\ forall p, In p ps -> outs_done n Eb p).
    { induction ps as [|[o s] ps IHp]; intros ga Ea gb HP Wa HF; cbn [fold_res] in HF.
      - inversion HF; subst. exists Ea. sp; auto; [|simpl; tauto]. unfold post. sp; auto using gle_refl.
      - destruct (dep_outputs n ga (o, s)) as [gc|] eqn:EE; [|discriminate].
        assert (Q : exists Ec, post ga gc Ea Ec /\ dg_nodes gc = dg_nodes ga /\ outs_done n Ec (o, s)).
        { unfold dep_outputs in EE. simpl in EE. destruct (is_compute s) eqn:EC.
          - assert (HT : st_type s = SCompute) by (unfold is_compute in EC; destruct (st_type s); congruence).
            destruct (LA o s (HP _ (or_introl eq_refl)) HT (nd_args n) ga Ea gc ltac:(auto) Wa EE) as (Ec & R1 & R2 & R3).
            exists Ec. sp; auto. intros _ x Hx. simpl. auto.
          - inversion EE; subst. exists Ea. sp; auto; [unfold post; sp; auto using gle_refl|].
            intros HT. simpl in HT. unfold is_compute in EC. rewrite HT in EC. discriminate. }
        destruct Q as (Ec & Q1 & Q2 & Q3).
        destruct (IHp gc Ec gb ltac:(intros; apply HP; now right) (proj1 Q1) HF) as (Eb & R1 & R2 & R3).
        exists Eb. sp.
        + eapply PT; eauto.
        + congruence.
        + intros p [<-|Hp]; auto. intros HT x Hx. apply R1. exact (Q3 HT x Hx). }
    destruct (LO (nd_setters n) g2 E2 g' ltac:(auto) W2 H) as (E3 & Q1 & Q2 & Q3).
    exists E3. sp; auto. }
  destruct O as (E3 & O1 & O2 & O3). exists E3.
  assert (PF := PT _ _ _ _ _ _ P1 O1). destruct O1 as (Q1 & Q2 & Q3 & _).
  assert (ND : node_done h i g' E3).
  { exists n. sp; auto. intros ps Hp. eapply param_done_mono; eauto. }
  destruct PF as (F1 & F2 & F3 & F4 & F5 & F6). split.
  - unfold dep_post. sp; auto. intros s Hs. destruct (F6 s Hs) as [|[->|Q]]; auto.
    right. exists i, n. sp; auto; [apply rt_refl|]. intros j Hj. eapply visited_mono; [exact Q2|].
    unfold ndeps in Hj. rewrite EN in Hj. unfold sdeps in Hj. apply in_flat_map in Hj.
    destruct Hj as (s & H1 & H2). apply in_map_iff in H1. destruct H1 as (p & <- & H1).
    destruct (st_dep (snd p)) as [j'|] eqn:ED; [|destruct H2]. destruct (j' =? i) eqn:EJ; [destruct H2|].
    destruct H2 as [<-|[]]. apply Nat.eqb_neq in EJ. eauto.
  - exists n. split; auto. destruct P2 as [->|P2]; auto. right. now rewrite O2.
Qed.
End P.
