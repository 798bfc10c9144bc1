(** Property C116: positions drawn from a coverage map, and coverage maps built from an observation table. *)
From Coq Require Import Reals String List Bool Arith ZArith Lia Lra.
From Verif Require Import Base BaseFacts RealBase GraphStateModel GraphStateProofs GraphStateProofs2 GraphStateProofs3 GraphStateProofs4 GraphStateProps NodeGraphModel SamplerModel SamplerProps ObsTableModel ObsTableProps ExternalProps DustProps RadecModel RadecTrig RadecProps RadecTable SimulateMore MocModel.
Import ListNotations.
Open Scope string_scope.
Open Scope list_scope.
Open Scope Z_scope.

(** ** Vocabulary *)
(** The pixels of depth 29 are numbered from 0; [descendant o q p] (SamplerProps): pixel [p] lies in the cell [q] of order [o]. *)
Definition pixel (p : Z) : Prop := 0 <= p < 12 * 4 ^ 29.
Definition valid_cell (c : Z * Z) : Prop := 0 <= fst c <= 29 /\ 0 <= snd c < 12 * 4 ^ fst c.
Definition valid_map (m : moc) : Prop := List.Forall valid_cell m.
(** The map covers a pixel. *)
Definition covered (m : moc) (p : Z) : Prop := exists o q, In (o, q) m /\ descendant o q p.
(** The sampler may draw a pixel: its cell of the sampler's depth contains a pixel of the map. *)
Definition reachable_pixel (depth : Z) (m : moc) (p : Z) : Prop :=
  pixel p /\ exists p', pixel p' /\ covered m p' /\ p' / 4 ^ (29 - depth) = p / 4 ^ (29 - depth).
(** Generators: as many positions below [m] and numbers of [0, m) as asked for. *)
Definition off_spec {G} (off_draws : Z -> nat -> G -> list Z * G) : Prop :=
  forall m n g, length (fst (off_draws m n g)) = n /\ (1 <= m -> List.Forall (fun i => 0 <= i < m) (fst (off_draws m n g))).
(** What HEALPix promises: the centre of a pixel lies in the pixel, a point of a pixel lies in every cell that contains the pixel, and a point of a cell lies in one of its pixels. *)
Record healpix (centre : Z -> R * R) (inside : Z -> Z -> R -> R -> Prop) : Prop := mkHealpix {
  hp_centre : forall p, pixel p -> inside 29 p (fst (centre p)) (snd (centre p));
  hp_nested : forall o p ra dec, 0 <= o <= 29 -> pixel p -> inside 29 p ra dec -> inside o (p / 4 ^ (29 - o)) ra dec;
  hp_filled : forall o q ra dec, valid_cell (o, q) -> inside o q ra dec -> exists p, pixel p /\ descendant o q p /\ inside 29 p ra dec }.
Definition in_map (inside : Z -> Z -> R -> R -> Prop) (m : moc) (ra dec : R) : Prop := exists o q, In (o, q) m /\ inside o q ra dec.

(** ** Pixels *)
Lemma pow_pos : forall k, 0 <= k -> 0 < 4 ^ k.
Proof. intros. apply Z.pow_pos_nonneg; lia. Qed.
Lemma pow_split : forall a b, 0 <= a -> 0 <= b -> 4 ^ (a + b) = 4 ^ a * 4 ^ b.
Proof. intros. apply Z.pow_add_r; auto. Qed.
Lemma anc : forall p a b, 0 <= a -> 0 <= b -> p / 4 ^ (a + b) = p / 4 ^ a / 4 ^ b.
Proof. intros p a b Ha Hb. rewrite pow_split by auto. rewrite Z.div_div; auto; pose proof (pow_pos a Ha); pose proof (pow_pos b Hb); lia. Qed.
(** Any cell has a first pixel. *)
Lemma first_pixel : forall o q, valid_cell (o, q) -> pixel (q * 4 ^ (29 - o)) /\ descendant o q (q * 4 ^ (29 - o)).
Proof.
  intros o q [Ho Hq]. cbn [fst snd] in *. pose proof (pow_pos (29 - o) ltac:(lia)) as P. assert (E : 4 ^ (29 - o) * 4 ^ o = 4 ^ 29) by (rewrite <- pow_split by lia; f_equal; lia).
  split; [split; nia|]. unfold descendant. apply Z.div_mul. lia.
Qed.
Lemma cell_of : forall d p, 0 <= d <= 29 -> pixel p -> valid_cell (d, p / 4 ^ (29 - d)).
Proof.
  intros d p Hd [P0 P1]. split; cbn [fst snd]; auto. pose proof (pow_pos (29 - d) ltac:(lia)) as P. assert (E : 4 ^ (29 - d) * 4 ^ d = 4 ^ 29) by (rewrite <- pow_split by lia; f_equal; lia).
  split; [apply Z.div_pos; lia|]. apply Z.div_lt_upper_bound; [lia|]. nia.
Qed.
Lemma flat_In : forall d m q, 0 <= d <= 29 -> valid_map m ->
  (In q (flat_at d m) <-> valid_cell (d, q) /\ exists p, pixel p /\ covered m p /\ p / 4 ^ (29 - d) = q).
Proof.
  intros d m q Hd HV. unfold flat_at. rewrite filter_In, existsb_exists, in_map_iff. pose proof (pow_pos d ltac:(lia)) as PD.
  assert (R : (exists x : nat, Z.of_nat x = q /\ In x (seq 0 (Z.to_nat (12 * 4 ^ d)))) <-> valid_cell (d, q)).
  { unfold valid_cell. cbn [fst snd]. split.
    - intros (x & <- & Hx). apply in_seq in Hx. lia.
    - intros [_ H]. exists (Z.to_nat q). split; [lia|]. apply in_seq. lia. }
  rewrite R. clear R. unfold valid_map in HV. rewrite List.Forall_forall in HV. split.
  - intros [Hq ((o & r) & HI & HM)]. split; auto. pose proof (HV _ HI) as Vc. pose proof Vc as [Ho Hr]. cbn [fst snd] in Ho, Hr. unfold meets in HM. destruct (Z.leb_spec o d).
    + apply Z.eqb_eq in HM. destruct (first_pixel d q Hq) as [F1 F2]. exists (q * 4 ^ (29 - d)). split; auto. split; [|exact F2]. exists o, r. split; auto. unfold descendant in *.
      replace (29 - o) with ((29 - d) + (d - o)) by lia. rewrite anc by lia. now rewrite F2.
    + apply Z.eqb_eq in HM. destruct (first_pixel o r Vc) as [F1 F2]. exists (r * 4 ^ (29 - o)). split; auto. split; [exists o, r; auto|]. unfold descendant in F2.
      replace (29 - d) with ((29 - o) + (o - d)) by lia. rewrite anc by lia. now rewrite F2.
  - intros [Hq (p & Pp & (o & r & HI & HD) & HE)]. split; auto. exists (o, r). split; auto. pose proof (HV _ HI) as [Ho Hr]. cbn [fst snd] in Ho, Hr. unfold meets. unfold descendant in HD. destruct (Z.leb_spec o d).
    + apply Z.eqb_eq. rewrite <- HE, <- anc by lia. rewrite <- HD. do 2 f_equal. lia.
    + apply Z.eqb_eq. rewrite <- HD, <- anc by lia. rewrite <- HE. do 2 f_equal. lia.
Qed.
Lemma flat_NoDup : forall d m, NoDup (flat_at d m).
Proof. intros. unfold flat_at. apply NoDup_filter. apply FinFun.Injective_map_NoDup; [|apply seq_NoDup]. intros a b E. lia. Qed.

Lemma ne_match : forall A T (l : list A) (x y : T), l <> [] -> match l with [] => x | _ => y end = y.
Proof. intros A T [|a l] x y H; congruence. Qed.

(** ** The node *)
Section Node.
Context {G : Type}.
Variable seeded : Z -> G.
Variable pick_draws : nat -> nat -> G -> list nat * G.
Variable off_draws : Z -> nat -> G -> list Z * G.
Variable centre : Z -> R * R.
Notation mn_compute := (mn_compute pick_draws off_draws centre).
(** Making a node: refused iff the depth is not one of 2 .. 29. *)
Theorem C116_depths : forall node m seed depth, (2 <= depth <= 29 <-> exists s, mn_init seeded node m seed depth = Ok s) /\ (~ 2 <= depth <= 29 -> mn_init seeded node m seed depth = Err ValueError).
Proof.
  intros node m seed depth. unfold mn_init, moc_make. destruct (Z.ltb_spec depth 2); [|destruct (Z.ltb_spec 29 depth)]; cbn [orb bind]; repeat match goal with |- _ /\ _ => split | |- _ <-> _ => split end; intros; try lia; auto;
    try (match goal with H : exists _, _ |- _ => destruct H; discriminate end); eauto.
Qed.
(** Histories of one node: computing (with or without a given generator) and seeding. *)
Inductive mop := MCompute (st : gs R) (rng : option G) | MSeed (z : Z).
Definition mstep (s : mnode G) (o : mop) : mnode G :=
  match o with MCompute st rng => fst (fst (fst (mn_compute s st rng))) | MSeed z => mn_set_seed seeded s z end.
Definition mrun (s : mnode G) (h : list mop) : mnode G := fold_left mstep h s.
Lemma compute_frame : forall s st rng, let s' := fst (fst (fst (mn_compute s st rng))) in mn_str s' = mn_str s /\ mn_depth s' = mn_depth s /\ mn_cells s' = mn_cells s /\ (rng <> None -> s' = s).
Proof.
  intros s st rng. unfold MocModel.mn_compute. destruct (mn_cells s) as [|c cs] eqn:EC; [cbn; auto|]. destruct (pick_draws _ _ _) as [ks g1]. destruct (off_draws _ _ _) as [offs g2].
  destruct (squeeze _ _); [destruct (squeeze _ _)|]; repeat (match goal with |- context [gs_set ?a ?b ?c ?d ?e] => destruct (gs_set a b c d e) as [? [?|]] end); destruct rng; cbn; rewrite ?EC; repeat split; auto; congruence.
Qed.
Lemma mrun_frame : forall h s, mn_str (mrun s h) = mn_str s /\ mn_depth (mrun s h) = mn_depth s /\ mn_cells (mrun s h) = mn_cells s.
Proof.
  induction h as [|o h IH]; intros s; [auto|]. cbn [mrun fold_left]. fold (mrun (mstep s o) h). destruct (IH (mstep s o)) as (-> & -> & ->). destruct o as [st rng|z]; [|auto].
  cbn [mstep]. destruct (compute_frame s st rng) as (A & B & C & _). auto.
Qed.
(** The generator in use. *)
Definition gen (s : mnode G) (rng : option G) : G := match rng with Some g => g | None => mn_own s end.
Lemma nth_map' : forall A B (h : A -> B) l i x, nth_error l i = Some x -> nth_error (map h l) i = Some (h x).
Proof. intros. now apply map_nth_error. Qed.
(** Sampling, after any history: the generator in use first chooses one cell of the sampler's depth per sample and then one number per sample; sample [i] is the centre of the pixel with that number inside
    its cell, the cell being one that the map touches.  Both coordinates are returned and stored; values given in advance and everything else stay; only the generator in use advances. *)
Theorem C116_samples : forall node m seed depth s0 h st rng, int_spec pick_draws -> off_spec off_draws -> valid_map m -> mn_init seeded node m seed depth = Ok s0 -> m <> [] -> reachable st -> has_dot node = false ->
  let s := mrun s0 h in let n := gs_n st in
  exists num cells, length cells = num /\ NoDup cells /\ (forall q, In q cells <-> 0 <= q < 12 * 4 ^ depth /\ exists p, pixel p /\ covered m p /\ p / 4 ^ (29 - depth) = q) /\
  let ks := fst (pick_draws num n (gen s rng)) in let g1 := snd (pick_draws num n (gen s rng)) in
  let offs := fst (off_draws (4 ^ (29 - depth)) n g1) in let g2 := snd (off_draws (4 ^ (29 - depth)) n g1) in
  exists ras decs a d s' rng' st', mn_compute s st rng = (s', rng', st', Ok (a, d)) /\ stored_as n ras a /\ stored_as n decs d /\ length ras = n /\ length decs = n /\
    (forall i, (i < n)%nat -> exists k q off, nth_error ks i = Some k /\ nth_error cells k = Some q /\ nth_error offs i = Some off /\ 0 <= off < 4 ^ (29 - depth) /\
       nth_error ras i = Some (fst (centre (q * 4 ^ (29 - depth) + off))) /\ nth_error decs i = Some (snd (centre (q * 4 ^ (29 - depth) + off))) /\ reachable_pixel depth m (q * 4 ^ (29 - depth) + off)) /\
    gs_n st' = n /\ (~ fixed_in st node "ra" -> has_values st' node "ra" ras) /\ (~ fixed_in st node "dec" -> has_values st' node "dec" decs) /\
    (forall nd k w, nd <> node \/ k <> "ra" /\ k <> "dec" \/ fixed_in st nd k -> (reads st' nd k w <-> reads st nd k w)) /\
    match rng with Some _ => s' = s /\ rng' = Some g2 | None => mn_own s' = g2 /\ rng' = None end.
Proof.
  intros node m seed depth s0 h st rng HP HO HV HI HM HR HN s n.
  assert (HD : 2 <= depth <= 29) by (apply (proj1 (C116_depths node m seed depth)); eauto). assert (HD' : 0 <= depth <= 29) by lia.
  assert (MK : moc_make depth (flat_at depth m) = Ok (depth, flat_at depth m)) by (unfold moc_make; destruct (Z.ltb_spec depth 2); [lia|]; destruct (Z.ltb_spec 29 depth); [lia|reflexivity]).
  destruct (moc_closed _ _ _ MK) as (Ps & ST & ER & CL). set (w := 4 ^ (29 - depth)) in *.
  unfold mn_init in HI. rewrite MK in HI. cbn [bind fst snd] in HI. injection HI as <-.
  destruct (mrun_frame h (mkM node depth (flat_at depth m) (seeded seed))) as (F1 & F2 & F3). fold s in F1, F2, F3. cbn [mn_str mn_depth mn_cells] in F1, F2, F3.
  assert (W := reachable_wf _ HR). pose proof (wf_n _ W) as Wn. fold n in Wn.
  set (cells := flat_at depth m) in *. exists (length cells), cells. split; auto. split; [apply flat_NoDup|].
  assert (IN : forall q, In q cells <-> 0 <= q < 12 * 4 ^ depth /\ exists p, pixel p /\ covered m p /\ p / w = q).
  { intros q. unfold cells. rewrite flat_In by auto. unfold valid_cell. cbn [fst snd]. fold w. tauto. }
  split; auto.
  assert (NE : cells <> []).
  { destruct m as [|[o q] m]; [congruence|]. pose proof (List.Forall_inv HV) as V1. destruct (first_pixel o q V1) as [A B].
    assert (X : In ((q * 4 ^ (29 - o)) / w) cells); [|intros C; rewrite C in X; contradiction]. apply IN. destruct (cell_of depth _ HD' A) as [_ Q]. cbn [fst snd] in Q. split; auto.
    exists (q * 4 ^ (29 - o)). split; auto. split; auto. exists o, q. split; [now left|auto]. }
  assert (LC : (1 <= length cells)%nat) by (destruct cells; [congruence|cbn; lia]).
  unfold MocModel.mn_compute. rewrite F3. cbv zeta. rewrite ne_match by auto. rewrite F2, ER. fold n. fold (gen s rng).
  destruct (HP (length cells) n (gen s rng)) as [LK FK]. specialize (FK LC). 
  destruct (pick_draws (length cells) n (gen s rng)) as [ks g1]. cbn [fst snd] in *. destruct (HO w n g1) as [LO FO]. specialize (FO ltac:(lia)). destruct (off_draws w n g1) as [offs g2]. cbn [fst snd] in *.
  set (p29 := map (fun x => moc_pixel29 depth (fst x) (snd x)) (combine (map (fun k => nth k cells 0) ks) offs)).
  assert (LP : length p29 = n) by (unfold p29; rewrite map_length, combine_length, map_length; lia).
  rewrite List.Forall_forall in FK, FO.
  assert (PX : forall i, (i < n)%nat -> exists k q off, nth_error ks i = Some k /\ nth_error cells k = Some q /\ nth_error offs i = Some off /\ 0 <= off < w /\ nth_error p29 i = Some (q * w + off) /\ reachable_pixel depth m (q * w + off)).
  { intros i Hi. destruct (nth_error ks i) as [k|] eqn:Ek; [|apply nth_error_None in Ek; lia]. destruct (nth_error offs i) as [off|] eqn:Eo; [|apply nth_error_None in Eo; lia].
    pose proof (FK k (nth_error_In _ _ Ek)) as Bk. pose proof (FO off (nth_error_In _ _ Eo)) as Bo. destruct (nth_error cells k) as [q|] eqn:Eq; [|apply nth_error_None in Eq; lia].
    exists k, q, off. pose proof (nth_error_In _ _ Eq) as Iq. apply IN in Iq. destruct Iq as [Bq (p & Pp & Cp & Dp)]. destruct (CL q off Bq Bo) as [Q1 Q2].
    repeat match goal with |- _ /\ _ => split end; auto; try lia.
    - unfold p29. rewrite (map_nth_error (fun x => moc_pixel29 depth (fst x) (snd x)) i _ (d := (q, off))); [cbn [fst snd]; now rewrite Q1|].
      rewrite nth_error_combine, (nth_map' _ _ (fun k => nth k cells 0) ks i k Ek), Eo. erewrite nth_error_nth; eauto.
    - unfold reachable_pixel. fold w. split; [unfold pixel; nia|]. exists p. split; auto. split; auto. rewrite Z.add_comm, Z.div_add by lia. rewrite (Z.div_small off) by lia. exact Dp. }
  set (ras := map (fun p => fst (centre p)) p29). set (decs := map (fun p => snd (centre p)) p29).
  assert (L1 : length ras = n) by (unfold ras; now rewrite map_length). assert (L2 : length decs = n) by (unfold decs; now rewrite map_length).
  destruct (squeeze_stored _ _ _ L1 Wn) as (a & Ea & Sa). destruct (squeeze_stored _ _ _ L2 Wn) as (d & Ed & Sd). rewrite Ea, Ed.
  destruct (set_values R node [("ra", a); ("dec", d)] st W) as (st' & E & W' & N' & F' & HVl & HOt); auto.
  { cbn. constructor; [intros [H|[]]; discriminate|constructor; [intros []|constructor]]. }
  { intros k [<-|[<-|[]]]; reflexivity. }
  { intros k v [H|[H|[]]]; injection H as <- <-; [apply (stored_storable R _ ras)|apply (stored_storable R _ decs)]; auto. }
  cbn [map gs_set_all fst snd] in E. rewrite F1. destruct (gs_set st node "ra" a false) as [st1 [e|]]; [discriminate|]. destruct (gs_set st1 node "dec" d false) as [st2 [e|]]; [discriminate|]. injection E as ->.
  exists ras, decs, a, d. do 3 eexists. split; [reflexivity|]. split; [auto|]. split; [auto|]. split; [auto|]. split; [auto|]. split; [|split; [auto|split; [|split; [|split]]]].
  - intros i Hi. destruct (PX i Hi) as (k & q & off & A & B & C & D & X & Y). exists k, q, off. repeat match goal with |- _ /\ _ => split end; auto; try lia.
    + exact (nth_map' _ _ (fun p => fst (centre p)) p29 i _ X).
    + exact (nth_map' _ _ (fun p => snd (centre p)) p29 i _ X).
  - intros NF. split; [unfold n in *; congruence|]. exists a. rewrite N'. split; auto. apply HVl; [now left|]. now apply fixed_false.
  - intros NF. split; [unfold n in *; congruence|]. exists d. rewrite N'. split; auto. apply HVl; [right; now left|]. now apply fixed_false.
  - intros nd k x H. apply HOt. destruct H as [H|[H|H]]; auto.
    + right. left. cbn. intros [X|[X|[]]]; destruct H; congruence.
    + right. right. now apply fixed_iff.
  - destruct rng; auto.
Qed.
(** An empty map gives a node that cannot be sampled. *)
Theorem C116_empty_map : forall node seed depth s0 h st rng, mn_init seeded node [] seed depth = Ok s0 -> mn_compute (mrun s0 h) st rng = (mrun s0 h, rng, st, Err ValueError).
Proof.
  intros node seed depth s0 h st rng E. unfold MocModel.mn_compute. destruct (mrun_frame h s0) as (_ & _ & ->).
  unfold mn_init, moc_make in E. destruct (_ || _)%bool; [discriminate|]. cbn [bind fst snd] in E. injection E as <-. cbn [mn_cells].
  replace (flat_at depth []) with (@nil Z); auto. unfold flat_at. cbn [existsb]. induction (map Z.of_nat _); auto.
Qed.
(** Whatever was done before, after seeding the node behaves as a new node with that seed; a given generator never moves the node's own one. *)
Theorem C116_seed_determines : forall node m seed0 depth s0 before z after, mn_init seeded node m seed0 depth = Ok s0 ->
  exists s1, mn_init seeded node m z depth = Ok s1 /\ forall st rng, mn_compute (mrun s0 (before ++ MSeed z :: after)) st rng = mn_compute (mrun s1 after) st rng.
Proof.
  intros node m seed0 depth s0 before z after E. unfold mn_init in *. destruct (moc_make depth (flat_at depth m)) as [[d c]|e]; [|discriminate]. cbn [bind fst snd] in *. injection E as <-.
  eexists. split; [reflexivity|]. intros. unfold mrun. rewrite fold_left_app. cbn [fold_left]. fold (mrun (mkM node d c (seeded seed0)) before).
  destruct (mrun_frame before (mkM node d c (seeded seed0))) as (E1 & E2 & E3). cbn [mstep]. unfold mn_set_seed. rewrite E1, E2, E3. reflexivity.
Qed.
Theorem C116_given_generator : forall s st g, fst (fst (fst (mn_compute s st (Some g)))) = s.
Proof. intros. destruct (compute_frame s st (Some g)) as (_ & _ & _ & H). apply H. discriminate. Qed.
(** Reading a map from a file is making the node from the map that the file holds; a path that is not a file is refused. *)
Theorem C116_from_file : forall node seed depth, mn_from_file seeded node None seed depth = Err RuntimeError /\
  forall m, mn_from_file seeded node (Some (Ok m)) seed depth = mn_init seeded node m seed depth.
Proof. split; reflexivity. Qed.
End Node.
Arguments MCompute {G}.
Arguments MSeed {G}.

(** ** Which pixels *)
(** Every pixel that may be drawn is drawn by exactly one pair of a cell and a number: with independent uniform choices all of them are equally likely. *)
Theorem C116_uniform : forall depth m cells, 2 <= depth <= 29 -> NoDup cells -> (forall q, In q cells <-> 0 <= q < 12 * 4 ^ depth /\ exists p, pixel p /\ covered m p /\ p / 4 ^ (29 - depth) = q) ->
  forall p, (reachable_pixel depth m p <-> exists k q off, nth_error cells k = Some q /\ 0 <= off < 4 ^ (29 - depth) /\ p = q * 4 ^ (29 - depth) + off) /\
    forall k q off k' q' off', nth_error cells k = Some q -> 0 <= off < 4 ^ (29 - depth) -> nth_error cells k' = Some q' -> 0 <= off' < 4 ^ (29 - depth) ->
      p = q * 4 ^ (29 - depth) + off -> p = q' * 4 ^ (29 - depth) + off' -> k = k' /\ off = off'.
Proof.
  intros depth m cells HD ND HI p. pose proof (pow_pos (29 - depth) ltac:(lia)) as P. assert (ST : 4 ^ (29 - depth) * 4 ^ depth = 4 ^ 29) by (rewrite <- pow_split by lia; f_equal; lia).
  set (w := 4 ^ (29 - depth)) in *. split.
  - unfold reachable_pixel. fold w. split.
    + intros [Pp H]. assert (X : In (p / w) cells). { apply HI. destruct (cell_of depth p ltac:(lia) Pp) as [_ Q]. cbn [fst snd] in Q. split; auto. }
      apply In_nth_error in X. destruct X as (k & Hk). exists k, (p / w), (p mod w). split; auto. split; [now apply Z.mod_pos_bound|]. rewrite (Z.div_mod p w) at 1 by lia. ring.
    + intros (k & q & off & Hk & Ho & ->). apply nth_error_In in Hk. apply HI in Hk. destruct Hk as [Bq (p' & A & B & C)]. split; [unfold pixel; nia|]. exists p'. split; auto. split; auto.
      rewrite Z.add_comm, Z.div_add by lia. rewrite (Z.div_small off) by lia. exact C.
  - intros k q off k' q' off' H1 H2 H3 H4 E1 E2. assert (q = q' /\ off = off') as [<- <-].
    { assert (A : p / w = q) by (rewrite E1, Z.add_comm, Z.div_add by lia; rewrite Z.div_small by lia; lia). assert (B : p / w = q') by (rewrite E2, Z.add_comm, Z.div_add by lia; rewrite Z.div_small by lia; lia).
      split; [congruence|]. assert (q = q') by congruence. subst q'. lia. }
    split; auto. rewrite NoDup_nth_error in ND. apply ND; [apply nth_error_Some; congruence|congruence].
Qed.
(** A map no finer than the sampler's depth: exactly the pixels of the map are drawn. *)
Theorem C116_pixels_of_the_map : forall depth m p, 2 <= depth <= 29 -> valid_map m -> List.Forall (fun c => fst c <= depth) m -> pixel p -> (reachable_pixel depth m p <-> covered m p).
Proof.
  intros depth m p HD HV HF Pp. unfold valid_map in HV. rewrite List.Forall_forall in HV, HF. split.
  - intros (_ & p' & _ & (o & q & HI & HDs) & HE). exists o, q. split; auto. pose proof (HV _ HI) as [Ho _]. pose proof (HF _ HI) as Hf. cbn [fst] in *. unfold descendant in *.
    replace (29 - o) with ((29 - depth) + (depth - o)) in * by lia. rewrite anc in * by lia. now rewrite <- HE.
  - intros HC. split; auto. exists p. auto.
Qed.
Lemma covered_in : forall centre inside m p ra dec, healpix centre inside -> valid_map m -> pixel p -> covered m p -> inside 29 p ra dec -> in_map inside m ra dec.
Proof.
  intros centre inside m p ra dec HH HV Pp (o & q & HI & HD) H. unfold valid_map in HV. rewrite List.Forall_forall in HV. destruct (HV _ HI) as [Ho _]. cbn [fst] in Ho. exists o, q. split; auto.
  rewrite <- HD. apply (hp_nested _ _ HH); auto.
Qed.
(** ... so every position drawn lies in the region of the map, and every point of the region lies in a pixel that can be drawn. *)
Theorem C116_inside_the_map : forall centre inside depth m, healpix centre inside -> 2 <= depth <= 29 -> valid_map m -> List.Forall (fun c => fst c <= depth) m ->
  (forall p, reachable_pixel depth m p -> in_map inside m (fst (centre p)) (snd (centre p))) /\
  (forall ra dec, in_map inside m ra dec -> exists p, reachable_pixel depth m p /\ inside 29 p ra dec).
Proof.
  intros centre inside depth m HH HD HV HF. split.
  - intros p Hp. pose proof (proj1 Hp) as Pp. apply (covered_in centre inside m p); auto; [|now apply (hp_centre _ _ HH)]. now apply (C116_pixels_of_the_map depth).
  - intros ra dec (o & q & HI & H). assert (V : valid_cell (o, q)) by (unfold valid_map in HV; rewrite List.Forall_forall in HV; auto).
    destruct (hp_filled _ _ HH o q ra dec V H) as (p & Pp & Dp & Ip). exists p. split; auto. split; auto. exists p. split; auto. split; [exists o, q; auto|reflexivity].
Qed.
(** Any map: a position drawn shares its cell of the sampler's depth with a point of the map, and still every point of the map can be drawn up to its pixel. *)
Theorem C116_near_the_map : forall centre inside depth m, healpix centre inside -> 2 <= depth <= 29 -> valid_map m ->
  (forall p, reachable_pixel depth m p -> exists q ra dec, in_map inside m ra dec /\ inside depth q ra dec /\ inside depth q (fst (centre p)) (snd (centre p))) /\
  (forall ra dec, in_map inside m ra dec -> exists p, reachable_pixel depth m p /\ inside 29 p ra dec).
Proof.
  intros centre inside depth m HH HD HV. split.
  - intros p (Pp & p' & Pp' & Cp' & HE). exists (p / 4 ^ (29 - depth)), (fst (centre p')), (snd (centre p')). pose proof (hp_centre _ _ HH p' Pp') as I'. split; [now apply (covered_in centre inside m p')|]. split.
    + rewrite <- HE. apply (hp_nested _ _ HH); auto. lia.
    + apply (hp_nested _ _ HH); auto; [lia|]. now apply (hp_centre _ _ HH).
  - intros ra dec (o & q & HI & H). assert (V : valid_cell (o, q)) by (unfold valid_map in HV; rewrite List.Forall_forall in HV; auto).
    destruct (hp_filled _ _ HH o q ra dec V H) as (p & Pp & Dp & Ip). exists p. split; auto. split; auto. exists p. split; auto. split; [exists o, q; auto|reflexivity].
Qed.
(** Finding: with a map finer than the sampler's depth most positions may lie outside of the map: a map of a single finer cell is replaced by a cell at least four times as large. *)
Theorem C116_finer_map_refuted : forall depth o q, 2 <= depth -> depth < o <= 29 -> 0 <= q < 12 * 4 ^ o ->
  exists p, reachable_pixel depth [(o, q)] p /\ ~ covered [(o, q)] p.
Proof.
  intros depth o q HD Ho Hq. assert (V : valid_cell (o, q)) by (split; cbn [fst snd]; lia). destruct (first_pixel o q V) as [F1 F2]. set (p' := q * 4 ^ (29 - o)) in *.
  set (w := 4 ^ (29 - depth)). set (v := 4 ^ (29 - o)) in *. assert (Pv : 0 < v) by (apply pow_pos; lia).
  assert (EW : w = v * 4 ^ (o - depth)) by (unfold w, v; rewrite <- pow_split by lia; f_equal; lia). assert (P4 : 4 <= 4 ^ (o - depth)). { replace (o - depth) with (1 + (o - depth - 1)) by lia. rewrite pow_split by lia. pose proof (pow_pos (o - depth - 1) ltac:(lia)). lia. }
  set (c := p' / w). assert (Pw : 0 < w) by nia. pose proof (Z.div_mod p' w ltac:(lia)) as DM. fold c in DM. pose proof (Z.mod_pos_bound p' w Pw) as MB.
  destruct (cell_of depth p' ltac:(lia) F1) as [_ [B0 B1]]. cbn [fst snd] in B0, B1. fold w c in B0, B1. assert (EE : w * 4 ^ depth = 4 ^ 29) by (unfold w; rewrite <- pow_split by lia; f_equal; lia).
  (* the first pixel of the cell, or the last one *)
  assert (X : exists r, 0 <= r < w /\ (c * w + r) / v <> q).
  { destruct (Z.eq_dec (c * w / v) q) as [E|E]; [|exists 0; split; [lia|]; now rewrite Z.add_0_r].
    exists v. split; [nia|]. intros C. assert (A : (c * w + v) / v = c * w / v + 1) by (replace (c * w + v) with (c * w + 1 * v) by ring; rewrite Z.div_add by lia; reflexivity). lia. }
  destruct X as (r & Hr & HN). exists (c * w + r). split.
  - split; [unfold pixel; nia|]. exists p'. split; auto. split; [exists o, q; split; [now left|auto]|]. fold w c. rewrite Z.add_comm, Z.div_add by lia. rewrite Z.div_small by lia. lia.
  - intros (o' & q' & [E|[]] & HDs). injection E as <- <-. unfold descendant in HDs. fold v in HDs. contradiction.
Qed.

(** ** Maps built from the pointings of a survey *)
(** What [MOC.from_cones] promises for depths that exist: cells of at most the given order that contain every point within the radius of a centre, and no point further away than [slack] from every cone. *)
Definition cones_spec (inside : Z -> Z -> R -> R -> Prop) (slack : Z -> R) (from_cones : list (R * R) -> R -> Z -> result moc) : Prop :=
  forall cs r d, (0 < r <= 180)%R -> 0 <= d <= 29 -> exists m, from_cones cs r d = Ok m /\ valid_map m /\ List.Forall (fun c => fst c <= d) m /\
    (forall ra dec a b, In (a, b) cs -> (separation a b ra dec <= r)%R -> in_map inside m ra dec) /\
    (forall ra dec, in_map inside m ra dec -> exists a b, In (a, b) cs /\ (separation a b ra dec <= r + slack d)%R).
Lemma dec_lat : forall o, (forall i d, num_at o "dec" i = Some d -> (-90 <= d <= 90)%R) -> forallb is_lat (num_col "dec" (ob_frame o)) = true.
Proof.
  intros o H. apply forallb_forall. intros x Hx. apply In_nth_error in Hx. destruct Hx as (i & Hi). rewrite num_col_nth in Hi. destruct (H i x Hi). unfold is_lat. apply andb_true_intro. split; now apply Rleb_true.
Qed.
Lemma In_centres : forall o a b, In (a, b) (combine (num_col "ra" (ob_frame o)) (num_col "dec" (ob_frame o))) <-> exists i, num_at o "ra" i = Some a /\ num_at o "dec" i = Some b.
Proof.
  intros o a b. split.
  - intros H. apply In_nth_error in H. destruct H as (i & H). exists i. rewrite nth_error_combine, !num_col_nth in H. destruct (num_at o "ra" i), (num_at o "dec" i); try discriminate. injection H as <- <-. auto.
  - intros (i & H1 & H2). apply nth_error_In with i. now rewrite nth_error_combine, !num_col_nth, H1, H2.
Qed.
(** A map is built whenever there is a radius and the declinations are declinations; it covers every point within the radius of a pointing and nothing that is further away than the radius plus the slack of its depth. *)
Theorem C116_built_map : forall inside slack from_cones o radius r max_depth, cones_spec inside slack from_cones -> tbl o -> radius_of o radius = Some r -> (0 < r <= 180)%R -> 0 <= max_depth <= 29 ->
  (forall i d, num_at o "dec" i = Some d -> (-90 <= d <= 90)%R) ->
  exists m, build_moc from_cones o radius max_depth = Ok m /\ valid_map m /\ List.Forall (fun c => fst c <= max_depth) m /\
    (forall ra dec i a b, num_at o "ra" i = Some a -> num_at o "dec" i = Some b -> (separation a b ra dec <= r)%R -> in_map inside m ra dec) /\
    (forall ra dec, in_map inside m ra dec -> exists i a b, num_at o "ra" i = Some a /\ num_at o "dec" i = Some b /\ (separation a b ra dec <= r + slack max_depth)%R).
Proof.
  intros inside slack from_cones o radius r d HC HT ER HR Hd HL. unfold build_moc. rewrite (radius_eq _ _ _ ER). cbn [bind]. rewrite (dec_lat o HL).
  destruct (HC (combine (num_col "ra" (ob_frame o)) (num_col "dec" (ob_frame o))) r d HR Hd) as (m & E & V & F & A & B). exists m. split; auto. split; auto. split; auto. split.
  - intros ra dec i a b H1 H2 H3. apply (A ra dec a b); auto. apply In_centres. eauto.
  - intros ra dec H. destruct (B ra dec H) as (a & b & HI & HS). apply In_centres in HI. destruct HI as (i & H1 & H2). eauto 10.
Qed.
(** Without a radius, and with a declination that is none, the map is refused. *)
Theorem C116_refused : forall from_cones o radius max_depth,
  (radius = None -> dget "radius" (ob_values o) = None \/ dget "radius" (ob_values o) = Some SNone -> build_moc from_cones o radius max_depth = Err ValueError) /\
  (forall r i d, radius_of o radius = Some r -> num_at o "dec" i = Some d -> (d < -90 \/ 90 < d)%R -> build_moc from_cones o radius max_depth = Err ValueError).
Proof.
  intros fc o radius md. unfold build_moc. split.
  - intros -> [H|H]; unfold preset_radius; now rewrite H.
  - intros r i d ER HD HB. rewrite (radius_eq _ _ _ ER). cbn [bind]. replace (forallb is_lat _) with false; auto. symmetry. apply not_true_iff_false. rewrite forallb_forall. intros C.
    assert (X : In d (num_col "dec" (ob_frame o))) by (apply nth_error_In with i; now rewrite num_col_nth). apply C in X. unfold is_lat in X. apply andb_prop in X. destruct X as [X1 X2]. apply Rleb_true in X1, X2. lra.
Qed.
(** A sampler on the map of a survey, at a depth at least the map's: the survey observed every position it returns up to the slack, and every position that the survey observes lies in a pixel that can be drawn. *)
Theorem C116_survey_positions : forall G (seeded : Z -> G) pick_draws off_draws centre inside slack from_cones o radius r max_depth node seed depth m s0 h st rng, int_spec pick_draws -> off_spec off_draws -> healpix centre inside ->
  cones_spec inside slack from_cones -> tbl o -> radius_of o radius = Some r -> (0 < r <= 180)%R -> 0 <= max_depth <= depth -> (exists i a, num_at o "ra" i = Some a) ->
  build_moc from_cones o radius max_depth = Ok m -> mn_init seeded node m seed depth = Ok s0 -> reachable st -> has_dot node = false ->
  exists ras decs s' rng' st' res, mn_compute pick_draws off_draws centre (mrun seeded pick_draws off_draws centre s0 h) st rng = (s', rng', st', Ok res) /\
    (~ fixed_in st node "ra" -> has_values st' node "ra" ras) /\ (~ fixed_in st node "dec" -> has_values st' node "dec" decs) /\ length ras = gs_n st /\ length decs = gs_n st /\
    (forall j ra dec, nth_error ras j = Some ra -> nth_error decs j = Some dec -> exists i a b, num_at o "ra" i = Some a /\ num_at o "dec" i = Some b /\ (separation a b ra dec <= r + slack max_depth)%R) /\
    (forall i a b ra dec, num_at o "ra" i = Some a -> num_at o "dec" i = Some b -> (separation a b ra dec <= r)%R -> exists p, reachable_pixel depth m p /\ inside 29 p ra dec).
Proof.
  intros G seeded pick_draws off_draws centre inside slack from_cones o radius r md node seed depth m s0 h st rng HP HO HH HC HT ER HR Hmd (i0 & a0 & H0) EB EI HRe HN.
  assert (HD : 2 <= depth <= 29) by (apply (proj1 (C116_depths seeded node m seed depth)); eauto).
  assert (HL : forall i d, num_at o "dec" i = Some d -> (-90 <= d <= 90)%R).
  { intros i d Hd. destruct (Rlt_dec d (-90)) as [L|L]; [rewrite (proj2 (C116_refused from_cones o radius md) r i d ER Hd (or_introl L)) in EB; discriminate|].
    destruct (Rlt_dec 90 d) as [L'|L']; [rewrite (proj2 (C116_refused from_cones o radius md) r i d ER Hd (or_intror L')) in EB; discriminate|lra]. }
  destruct (C116_built_map inside slack from_cones o radius r md HC HT ER HR ltac:(lia) HL) as (m' & EB' & V & F & A & B). rewrite EB in EB'. injection EB' as <-.
  assert (F' : List.Forall (fun c => fst c <= depth) m) by (eapply List.Forall_impl; [|exact F]; cbn; intros; lia).
  assert (NE : m <> []).
  { intros ->. assert (T := tbl_inv _ HT). pose proof (num_at_lt o "ra" i0 a0 T H0) as LI. destruct (num_at_Some o "dec" i0 T) as (b0 & H1); [apply (ti_req _ T); cbn; auto|auto|].
    destruct (A a0 b0 i0 a0 b0 H0 H1) as (x & y & [] & _). rewrite sep_self. lra. }
  destruct (C116_samples seeded pick_draws off_draws centre node m seed depth s0 h st rng HP HO V EI NE HRe HN) as (num & cells & _ & _ & _ & ras & decs & a & d & s' & rng' & st' & E & _ & _ & L1 & L2 & HX & _ & HA & HB & _).
  destruct (C116_inside_the_map centre inside depth m HH HD V F') as [IN1 IN2].
  exists ras, decs, s', rng', st', (a, d). split; auto. split; auto. split; auto. split; auto. split; auto. split.
  - intros j ra dec Hra Hdec. assert (Lj : (j < gs_n st)%nat) by (rewrite <- L1; apply nth_error_Some; congruence). destruct (HX j Lj) as (k & q & off & _ & _ & _ & _ & R1 & R2 & RP).
    rewrite Hra in R1. rewrite Hdec in R2. injection R1 as ->. injection R2 as ->. apply B. now apply IN1.
  - intros i a' b' ra dec H1 H2 H3. apply IN2. eapply A; eauto.
Qed.

(** ** Concrete cases *)
(** A way of cutting the sky that keeps HEALPix' promises: 12 * 4 ^ 29 slices of right ascension, four slices of one order to a slice of the order before. *)
Definition ex_n : R := IZR (12 * 4 ^ 29).
Definition slice (ra : R) : Z := Z.max 0 (Z.min (12 * 4 ^ 29 - 1) (Int_part (ra * ex_n / 360))).
Definition ex_inside (o q : Z) (ra dec : R) : Prop := slice ra / 4 ^ (29 - o) = q.
Definition ex_centre (p : Z) : R * R := (((IZR p + / 2) * 360 / ex_n)%R, 0%R).
Lemma ex_n_pos : (0 < ex_n)%R.
Proof. unfold ex_n. apply IZR_lt. reflexivity. Qed.
Lemma slice_pixel : forall ra, pixel (slice ra).
Proof. intros ra. unfold pixel, slice. set (N := 12 * 4 ^ 29). assert (0 < N) by reflexivity. clearbody N. lia. Qed.
Lemma ex_healpix : healpix ex_centre ex_inside.
Proof.
  pose proof ex_n_pos as PN. constructor.
  - intros p [P0 P1]. unfold ex_inside. cbn [fst snd]. change (4 ^ (29 - 29)) with 1. rewrite Z.div_1_r. unfold slice.
    replace (fst (ex_centre p) * ex_n / 360)%R with (IZR p + / 2)%R by (unfold ex_centre; cbn [fst]; field; lra).
    assert (E : p = Int_part (IZR p + / 2)).
    { destruct (base_Int_part (IZR p + / 2)) as [U L]. assert (p - 1 < Int_part (IZR p + / 2) < p + 1); [|lia]. split; apply lt_IZR; rewrite ?minus_IZR, ?plus_IZR; lra. }
    rewrite <- E. revert P0 P1. set (N := 12 * 4 ^ 29). clearbody N. lia.
  - intros o p ra dec Ho Hp H. unfold ex_inside in *. change (4 ^ (29 - 29)) with 1 in H. rewrite Z.div_1_r in H. now rewrite H.
  - intros o q ra dec V H. exists (slice ra). split; [apply slice_pixel|]. split; [exact H|]. unfold ex_inside. change (4 ^ (29 - 29)) with 1. apply Z.div_1_r.
Qed.
(** Cones on that sky, covered generously: the twelve cells of order 0. *)
Definition ex_cones (cs : list (R * R)) (r : R) (d : Z) : result moc :=
  match cs with [] => Ok [] | _ => Ok (map (fun i => (0, Z.of_nat i)) (seq 0 12)) end.
Lemma ex_cones_spec : cones_spec ex_inside (fun _ => 180%R) ex_cones.
Proof.
  intros cs r d Hr Hd. destruct cs as [|[a0 b0] cs].
  - exists []. split; [reflexivity|]. split; [constructor|]. split; [constructor|]. split; [intros ? ? ? ? []|]. intros ra dec (o & q & [] & _).
  - exists (map (fun i => (0, Z.of_nat i)) (seq 0 12)). split; [reflexivity|]. split; [|split; [|split]].
    + apply List.Forall_forall. intros c Hc. apply in_map_iff in Hc. destruct Hc as (i & <- & Hi). apply in_seq in Hi. split; cbn [fst snd]; [lia|]. change (4 ^ 0) with 1. lia.
    + apply List.Forall_forall. intros c Hc. apply in_map_iff in Hc. destruct Hc as (i & <- & Hi). cbn [fst]. lia.
    + intros ra dec a b _ _. exists 0, (slice ra / 4 ^ (29 - 0)). split; [|reflexivity]. destruct (cell_of 0 (slice ra) ltac:(lia) (slice_pixel ra)) as [_ B]. cbn [fst snd] in B. change (12 * 4 ^ 0) with 12 in B.
      apply in_map_iff. exists (Z.to_nat (slice ra / 4 ^ (29 - 0))). split; [f_equal; lia|]. apply in_seq. lia.
    + intros ra dec _. exists a0, b0. split; [now left|]. unfold separation. pose proof (acos_bound (cos_sep a0 b0 ra dec)) as [_ B]. pose proof PI_RGT_0.
      assert (acos (cos_sep a0 b0 ra dec) * 180 / PI <= 180)%R; [|lra]. apply Rmult_le_reg_r with PI; [lra|]. unfold Rdiv. rewrite Rmult_assoc, Rinv_l by lra. lra.
Qed.
Definition ex_picks (m n : nat) (g : nat) : list nat * nat := (map (fun i => ((g + i) mod m)%nat) (seq 0 n), (g + n)%nat).
Definition ex_offs (m : Z) (n : nat) (g : nat) : list Z * nat := (map (fun i => Z.of_nat (7 * (g + i)) mod m) (seq 0 n), (g + n)%nat).
Lemma ex_picks_spec : int_spec ex_picks.
Proof.
  intros m n g. unfold ex_picks. cbn [fst]. split; [now rewrite map_length, seq_length|]. intros Hm. apply List.Forall_forall. intros x Hx. apply in_map_iff in Hx. destruct Hx as (i & <- & _). apply Nat.mod_upper_bound. lia.
Qed.
Lemma ex_offs_spec : off_spec ex_offs.
Proof.
  intros m n g. unfold ex_offs. cbn [fst]. split; [now rewrite map_length, seq_length|]. intros Hm. apply List.Forall_forall. intros x Hx. apply in_map_iff in Hx. destruct Hx as (i & <- & _). apply Z.mod_pos_bound. lia.
Qed.
(** A survey of one pointing, its map, a sampler of depth 3 and two samples of a seeded generator. *)
Example C116_applies : exists m s0 ras decs s' rng' st' res, build_moc ex_cones sky None 0 = Ok m /\ mn_init Z.to_nat "pos" m 5 3 = Ok s0 /\
  mn_compute ex_picks ex_offs ex_centre s0 (gs_fresh 2) None = (s', rng', st', Ok res) /\ has_values st' "pos" "ra" ras /\ has_values st' "pos" "dec" decs /\
  (exists p, reachable_pixel 3 m p /\ ex_inside 29 p (1 / 2) (1 / 2)).
Proof.
  assert (RF : reachable (gs_fresh (A := R) 2)) by (exists 2%nat, []; split; [lia|reflexivity]).
  assert (NF : forall k, ~ fixed_in (gs_fresh (A := R) 2) "pos" k) by (intros k (l & H & _); discriminate).
  assert (ER : radius_of sky None = Some 1%R) by reflexivity.
  assert (HL : forall i d, num_at sky "dec" i = Some d -> (-90 <= d <= 90)%R).
  { intros i d H. unfold num_at, cell_at in H. cbn in H. destruct i as [|i]; cbn in H; [injection H as <-; lra|destruct i; discriminate]. }
  destruct (C116_built_map ex_inside (fun _ => 180%R) ex_cones sky None 1 0 ex_cones_spec sky_tbl ER ltac:(lra) ltac:(lia) HL) as (m & EB & V & F & A & B).
  destruct (proj1 (proj1 (C116_depths Z.to_nat "pos" m 5 3)) ltac:(lia)) as (s0 & EI).
  destruct (C116_survey_positions nat Z.to_nat ex_picks ex_offs ex_centre ex_inside (fun _ => 180%R) ex_cones sky None 1 0 "pos" 5 3 m s0 [] (gs_fresh 2) None ex_picks_spec ex_offs_spec ex_healpix ex_cones_spec sky_tbl ER
    ltac:(lra) ltac:(lia) (ex_intro _ 0%nat (ex_intro _ 0%R eq_refl)) EB EI RF eq_refl) as (ras & decs & s' & rng' & st' & res & E & HA & HB & _ & _ & _ & HX).
  exists m, s0, ras, decs, s', rng', st', res. split; auto. split; auto. split; [exact E|]. split; auto. split; auto.
  destruct (C116_near_the_map ex_centre ex_inside 3 m ex_healpix ltac:(lia) V) as [_ N]. apply N.
  assert (EM : m = map (fun i => (0, Z.of_nat i)) (seq 0 12)).
  { unfold build_moc in EB. rewrite (radius_eq _ _ _ ER) in EB. cbn [bind] in EB. rewrite (dec_lat sky HL) in EB. cbn in EB. injection EB as <-. reflexivity. }
  exists 0, (slice (1 / 2) / 4 ^ (29 - 0)). split; [|reflexivity]. rewrite EM. destruct (cell_of 0 (slice (1 / 2)) ltac:(lia) (slice_pixel (1 / 2))) as [_ Bq]. cbn [fst snd] in Bq. change (12 * 4 ^ 0) with 12 in Bq.
  apply in_map_iff. exists (Z.to_nat (slice (1 / 2) / 4 ^ (29 - 0))). split; [f_equal; lia|]. apply in_seq. lia.
Qed.
(** A map of one cell of order 1 and one of order 4, sampled at depth 2: four children and one parent. *)
Example C116_cells : flat_at 2 [(1, 10); (4, 77)] = [4; 40; 41; 42; 43].
Proof. reflexivity. Qed.
Example C116_one_run : exists s0 s' st', mn_init Z.to_nat "pos" [(1, 10); (4, 77)] 1 2 = Ok s0 /\
  mn_compute ex_picks ex_offs (fun p => (IZR p, 1%R)) s0 (gs_fresh 2) None = (s', None, st', Ok (Arr [Atom (IZR (40 * 4 ^ 27 + 21)); Atom (IZR (41 * 4 ^ 27 + 28))], Arr [Atom 1%R; Atom 1%R])) /\ mn_own s' = 5%nat.
Proof.
  exists (mkM "pos" 2 [4; 40; 41; 42; 43] 1%nat). do 2 eexists. split; [vm_compute; reflexivity|]. split; reflexivity.
Qed.
