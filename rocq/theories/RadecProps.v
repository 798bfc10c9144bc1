(** Properties C98 (UniformRADEC) and C99 (ObsTableRADECSampler). *)
From Coq Require Import Reals String List Bool Arith ZArith Lia Lra.
From Coquelicot Require Import Coquelicot.
From Verif Require Import Base BaseFacts RealBase GraphStateModel GraphStateProofs GraphStateProofs2 GraphStateProofs3 GraphStateProofs4 GraphStateProps NodeGraphModel SamplerModel SamplerProps ObsTableModel ObsTableProps ExternalProps DustProps RadecModel RadecTrig.
Import ListNotations.
Open Scope string_scope.
Open Scope list_scope.
Open Scope nat_scope.

(** ** Vocabulary *)
(** A generator returns as many numbers of [0, 1) as asked for ... *)
Definition unit_spec {G} (unit_draws : nat -> G -> list R * G) : Prop :=
  forall n g, length (fst (unit_draws n g)) = n /\ List.Forall (fun u => (0 <= u < 1)%R) (fst (unit_draws n g)).
(** ... and as many of the first [m] naturals. *)
Definition int_spec {G} (int_draws : nat -> nat -> G -> list nat * G) : Prop :=
  forall m n g, length (fst (int_draws m n g)) = n /\ (1 <= m -> List.Forall (fun i => i < m) (fst (int_draws m n g))).
(** The sky position that belongs to two numbers of [0, 1): the right ascension is the fraction [u] of the full circle, the sine of the declination is uniform. *)
Definition full_turn (deg : bool) : R := if deg then 360%R else (2 * PI)%R.
Definition sin_of (deg : bool) (d : R) : R := if deg then sin (d * PI / 180) else sin d.
Definition sky_position (deg : bool) (u v ra dec : R) : Prop :=
  (ra = full_turn deg * u /\ - (full_turn deg / 4) <= dec <= full_turn deg / 4 /\ sin_of deg dec = 2 * v - 1)%R.

(** ** Storing *)
Lemma set_values : forall A node (kvs : list (string * value A)) (st : gs A), wf st -> NoDup (map fst kvs) -> has_dot node = false -> (forall k, In k (map fst kvs) -> has_dot k = false) ->
  (forall k v, In (k, v) kvs -> store_value (gs_n st) v = Ok v) ->
  exists st', gs_set_all st (map (fun kv => (node, fst kv, snd kv)) kvs) false = (st', None) /\ wf st' /\ gs_n st' = gs_n st /\
    (forall nd k, is_fixed st' nd k = is_fixed st nd k) /\
    (forall k v, In (k, v) kvs -> is_fixed st node k = false -> reads st' node k v) /\
    (forall nd k w, nd <> node \/ ~ In k (map fst kvs) \/ is_fixed st nd k = true -> (reads st' nd k w <-> reads st nd k w)).
Proof.
  intros A node kvs st W ND HN HK HS. set (l := map (fun kv : string * value A => (node, fst kv, snd kv)) kvs).
  assert (NDl : NoDup (map fst l)).
  { unfold l. rewrite map_map. cbn [fst]. rewrite <- (map_map fst (fun k => (node, k))). apply FinFun.Injective_map_NoDup; auto. intros a b E. congruence. }
  assert (FST : forall nd k, In (nd, k) (map fst l) <-> nd = node /\ In k (map fst kvs)).
  { intros nd k. unfold l. rewrite map_map. cbn [fst]. rewrite <- (map_map fst (fun k => (node, k))), in_map_iff. split; [intros (x & E & H); injection E as <- <-; auto|intros [-> H]; eauto]. }
  destruct (set_all_ok l st false W) as (s' & E).
  { intros e He. unfold l in He. apply in_map_iff in He. destruct He as ([k v] & <- & Hk). cbn [fst snd]. split; [|split]; auto. - apply HK. change k with (fst (k, v)). now apply in_map. - exists v. eauto. }
  exists s'. split; [exact E|]. destruct (set_all_spec _ _ _ _ W E NDl) as (W' & N' & D' & L' & F' & S'). split; auto. split; auto. split.
  { intros nd k. rewrite F'. cbn [andb]. now rewrite orb_false_r. } split.
  - intros k v HI NF. unfold reads. apply reads_look; [now apply wf_wk|]. rewrite L', (find_key l node k v); auto; [|unfold l; apply in_map_iff; now exists (k, v)].
    rewrite NF. cbn [snd]. now rewrite (HS k v HI).
  - intros nd k w H. unfold reads. rewrite !reads_look by (now apply wf_wk). rewrite L'. destruct (find _ l) as [[[a b] u]|] eqn:EF; [|tauto].
    apply find_some in EF. destruct EF as [EI EB]. cbn [fst snd] in EB. apply andb_prop in EB. destruct EB as [E1 E2]. apply String.eqb_eq in E1, E2. subst a b.
    assert (HI : In (nd, k) (map fst l)) by (change (nd, k) with (fst (nd, k, u)); now apply in_map). apply FST in HI. destruct HI as [-> HI]. destruct H as [H|[H|H]]; try contradiction. now rewrite H.
Qed.

(** ** C98 *)
Section Uniform.
Context {G : Type}.
Variable seeded : Z -> G.
Variable unit_draws : nat -> G -> list R * G.
Notation ur_compute := (ur_compute unit_draws).
Lemma squeeze_stored : forall A n (l : list A), length l = n -> 1 <= n -> exists v, squeeze n l = Ok v /\ stored_as n l v.
Proof.
  intros A n l L Hn. unfold squeeze, stored_as. destruct (Nat.eqb_spec n 1) as [->|N].
  - destruct l as [|x [|y l]]; try discriminate. exists (Atom x). split; auto. left. split; auto. eexists; split; reflexivity.
  - eexists; split; [reflexivity|]. now right.
Qed.
Lemma nth_map : forall A B (h : A -> B) l i x, nth_error l i = Some x -> nth_error (map h l) i = Some (h x).
Proof. intros. now apply map_nth_error. Qed.
Lemma drawn : forall n g us vs g1 g2 (deg : bool), unit_spec unit_draws -> unit_draws n g = (us, g1) -> unit_draws n g1 = (vs, g2) ->
  let ra := map (fun u => (0 + (2 * PI - 0) * u)%R) us in let dec := map asin (map (fun u => (-1 + (1 - -1) * u)%R) vs) in
  let ra := if deg then map degrees ra else ra in let dec := if deg then map degrees dec else dec in
  length ra = n /\ length dec = n /\
  forall i u v, nth_error us i = Some u -> nth_error vs i = Some v -> exists a d, nth_error ra i = Some a /\ nth_error dec i = Some d /\ sky_position deg u v a d.
Proof.
  intros n g us vs g1 g2 deg HU E1 E2. pose proof (HU n g) as [L1 F1]. pose proof (HU n g1) as [L2 F2]. rewrite E1 in L1, F1. rewrite E2 in L2, F2. cbn [fst] in *. cbv zeta.
  split; [destruct deg; rewrite ?map_length; auto|]. split; [destruct deg; rewrite ?map_length; auto|].
  intros i u v Hu Hv. rewrite List.Forall_forall in F2. pose proof (F2 v (nth_error_In _ _ Hv)) as Bv. pose proof PI_RGT_0 as HP.
  set (y := (-1 + (1 - -1) * v)%R). assert (B1 : (-1 <= y <= 1)%R) by (unfold y; lra). pose proof (asin_bound y) as AB. pose proof (sin_asin y B1) as SA.
  exists (if deg then degrees (0 + (2 * PI - 0) * u) else 0 + (2 * PI - 0) * u)%R, (if deg then degrees (asin y) else asin y).
  split; [destruct deg; rewrite ?map_map; match goal with |- nth_error (map ?h _) _ = _ => exact (nth_map _ _ h _ _ u Hu) end|].
  split; [destruct deg; rewrite ?map_map; match goal with |- nth_error (map ?h _) _ = _ => exact (nth_map _ _ h _ _ v Hv) end|].
  unfold sky_position, full_turn, sin_of, degrees. destruct deg.
  - split; [field; lra|]. split.
    + assert (E : forall x, (x * 180 / PI = x * (180 / PI))%R) by (intros; field; lra). rewrite E. assert (0 < 180 / PI)%R by (apply Rdiv_lt_0_compat; lra).
      assert (H90 : (PI / 2 * (180 / PI) = 90)%R) by (field; lra). split.
      * assert ((- (PI / 2)) * (180 / PI) <= asin y * (180 / PI))%R by (apply Rmult_le_compat_r; lra). lra.
      * assert (asin y * (180 / PI) <= PI / 2 * (180 / PI))%R by (apply Rmult_le_compat_r; lra). lra.
    + replace (asin y * 180 / PI * PI / 180)%R with (asin y) by (field; lra). rewrite SA. unfold y. lra.
  - split; [lra|]. split; [lra|]. rewrite SA. unfold y. lra.
Qed.
(** Sampling: the generator in use makes two batches of numbers of [0, 1), one number per sample each; sample [i] is the position that belongs to the two numbers [i].  Both
    coordinates are returned and stored; values given in advance and everything else stay; only the generator in use advances. *)
Theorem C98_samples : forall (u : unode G) st rng, unit_spec unit_draws -> reachable st -> has_dot (un_str u) = false ->
  let g := match rng with Some g => g | None => un_own u end in
  let us := fst (unit_draws (gs_n st) g) in let vs := fst (unit_draws (gs_n st) (snd (unit_draws (gs_n st) g))) in let g2 := snd (unit_draws (gs_n st) (snd (unit_draws (gs_n st) g))) in
  exists ras decs a d u' rng' st', ur_compute u st rng = (u', rng', st', Ok (a, d)) /\ stored_as (gs_n st) ras a /\ stored_as (gs_n st) decs d /\
    length ras = gs_n st /\ length decs = gs_n st /\
    (forall i x y, nth_error us i = Some x -> nth_error vs i = Some y -> exists ra dec, nth_error ras i = Some ra /\ nth_error decs i = Some dec /\ sky_position (un_deg u) x y ra dec) /\
    gs_n st' = gs_n st /\ (~ fixed_in st (un_str u) "ra" -> has_values st' (un_str u) "ra" ras) /\ (~ fixed_in st (un_str u) "dec" -> has_values st' (un_str u) "dec" decs) /\
    (forall nd k w, nd <> un_str u \/ k <> "ra" /\ k <> "dec" \/ fixed_in st nd k -> (reads st' nd k w <-> reads st nd k w)) /\
    match rng with Some _ => u' = u /\ rng' = Some g2 | None => u' = mkU (un_str u) (un_deg u) g2 /\ rng' = None end.
Proof.
  intros u st rng HU HR HN g us vs g2. assert (W := reachable_wf _ HR). pose proof (wf_n _ W) as Wn.
  unfold ur_compute. fold g. unfold rng_uniform. unfold us, vs, g2. destruct (unit_draws (gs_n st) g) as [us' g1'] eqn:E1. cbn [fst snd]. destruct (unit_draws (gs_n st) g1') as [vs' g2'] eqn:E2. cbn [fst snd].
  destruct (drawn _ _ _ _ _ _ (un_deg u) HU E1 E2) as (L1 & L2 & HP).
  set (ra := if un_deg u then map degrees _ else _) in *. set (dec := if un_deg u then map degrees (map asin _) else _) in *. 
  destruct (squeeze_stored _ _ _ L1 Wn) as (a & Ea & Sa). destruct (squeeze_stored _ _ _ L2 Wn) as (d & Ed & Sd). rewrite Ea, Ed.
  destruct (set_values R (un_str u) [("ra", a); ("dec", d)] st W) as (st' & E & W' & N' & F' & HV & HO); auto.
  { cbn. constructor; [intros [H|[]]; discriminate|constructor; [intros []|constructor]]. }
  { intros k [<-|[<-|[]]]; reflexivity. }
  { intros k v [H|[H|[]]]; injection H as <- <-; [apply (stored_storable R _ ra)|apply (stored_storable R _ dec)]; auto. }
  cbn [map gs_set_all fst snd] in E. destruct (gs_set st (un_str u) "ra" a false) as [st1 [e|]]; [discriminate|]. destruct (gs_set st1 (un_str u) "dec" d false) as [st2 [e|]]; [discriminate|]. injection E as ->.
  exists ra, dec, a, d. do 3 eexists. split; [reflexivity|]. split; [auto|]. split; [auto|]. split; [auto|]. split; [auto|]. split; [exact HP|]. split; [auto|]. split; [|split; [|split]].
  - intros NF. split; [congruence|]. exists a. rewrite N'. split; auto. apply HV; [now left|]. now apply fixed_false.
  - intros NF. split; [congruence|]. exists d. rewrite N'. split; auto. apply HV; [right; now left|]. now apply fixed_false.
  - intros nd k w H. apply HO. destruct H as [H|[H|H]]; auto.
    + right. left. cbn. intros [X|[X|[]]]; destruct H; congruence.
    + right. right. now apply fixed_iff.
  - destruct rng; auto.
Qed.
(** Histories of one node: computing (with or without a given generator) and seeding. *)
Inductive uop := UCompute (st : gs R) (rng : option G) | USeed (z : Z).
Definition ustep (u : unode G) (o : uop) : unode G :=
  match o with UCompute st rng => fst (fst (fst (ur_compute u st rng))) | USeed z => ur_set_seed seeded u z end.
Definition urun (u : unode G) (h : list uop) : unode G := fold_left ustep h u.
Lemma ustep_frame : forall u o, un_str (ustep u o) = un_str u /\ un_deg (ustep u o) = un_deg u.
Proof.
  intros u [st rng|z]; [|auto]. unfold ustep, RadecModel.ur_compute. destruct (rng_uniform unit_draws 0 (2 * PI) _ _) as [ra g1]. destruct (rng_uniform unit_draws (-1) 1 _ _) as [ys g2].
  destruct (squeeze _ _); [destruct (squeeze _ _)|]; repeat (match goal with |- context [gs_set ?a ?b ?c ?d ?e] => destruct (gs_set a b c d e) as [? [?|]] end); destruct rng; auto.
Qed.
Lemma urun_frame : forall h u, un_str (urun u h) = un_str u /\ un_deg (urun u h) = un_deg u.
Proof.
  induction h as [|o h IH]; intros u; [auto|]. cbn [urun fold_left]. fold (urun (ustep u o) h). destruct (IH (ustep u o)) as [-> ->]. apply ustep_frame.
Qed.
(** Whatever was done before, after seeding the node behaves as a new node with that seed. *)
Theorem C98_seed_determines : forall node seed0 deg before z after st rng,
  ur_compute (urun (ur_init seeded node seed0 deg) (before ++ USeed z :: after)) st rng = ur_compute (urun (ur_init seeded node z deg) after) st rng.
Proof.
  intros. unfold urun. rewrite fold_left_app. cbn [fold_left]. fold (urun (ur_init seeded node seed0 deg) before).
  destruct (urun_frame before (ur_init seeded node seed0 deg)) as [E1 E2]. cbn [ustep]. unfold ur_set_seed. rewrite E1, E2. reflexivity.
Qed.
(** Computing with a given generator never moves the node's own one. *)
Theorem C98_given_generator : forall u st g, fst (fst (fst (ur_compute u st (Some g)))) = u.
Proof.
  intros u st g. unfold RadecModel.ur_compute. destruct (rng_uniform unit_draws 0 (2 * PI) _ _) as [ra g1]. destruct (rng_uniform unit_draws (-1) 1 _ _) as [ys g2].
  destruct (squeeze _ _); [destruct (squeeze _ _)|]; repeat (match goal with |- context [gs_set ?a ?b ?c ?d ?e] => destruct (gs_set a b c d e) as [? [?|]] end); reflexivity.
Qed.
End Uniform.
Arguments UCompute {G}.
Arguments USeed {G}.
(** Every position lies on the sky. *)
Theorem C98_range : forall deg u v ra dec, (0 <= u < 1)%R -> (0 <= v < 1)%R -> sky_position deg u v ra dec ->
  (0 <= ra < full_turn deg)%R /\ (- (full_turn deg / 4) <= dec < full_turn deg / 4)%R.
Proof.
  intros deg u v ra dec Hu Hv (-> & B & S). pose proof PI_RGT_0 as HP. assert (T : (0 < full_turn deg)%R) by (unfold full_turn; destruct deg; lra).
  split.
  - split; [apply Rmult_le_pos; lra|]. rewrite <- (Rmult_1_r (full_turn deg)) at 2. apply Rmult_lt_compat_l; lra.
  - split; [lra|]. destruct (Req_dec dec (full_turn deg / 4)) as [E|N]; [|lra]. exfalso. subst dec.
    assert (sin_of deg (full_turn deg / 4) = 1)%R; [|lra]. unfold sin_of, full_turn. destruct deg.
    + replace (360 / 4 * PI / 180)%R with (PI / 2)%R by field. apply sin_PI2.
    + replace (2 * PI / 4)%R with (PI / 2)%R by field. apply sin_PI2.
Qed.
(** Uniform over the sphere: for a part of the sky between two right ascensions and two declinations, the pairs of numbers whose position lies in it form a rectangle of the
    unit square whose area is the solid angle of that part (the integral of cos dec) over the 4 pi of the whole sphere. *)
Definition rad (deg : bool) (x : R) : R := if deg then (x * PI / 180)%R else x.
Theorem C98_uniform : forall deg a1 a2 d1 d2, (0 <= a1 <= a2)%R -> (a2 <= full_turn deg)%R -> (- (full_turn deg / 4) <= d1 <= d2)%R -> (d2 <= full_turn deg / 4)%R ->
  exists u1 u2 v1 v2, (0 <= u1 <= u2)%R /\ (u2 <= 1)%R /\ (0 <= v1 <= v2)%R /\ (v2 <= 1)%R /\
    (forall u v ra dec, sky_position deg u v ra dec -> ((a1 <= ra <= a2)%R /\ (d1 <= dec <= d2)%R <-> (u1 <= u <= u2)%R /\ (v1 <= v <= v2)%R)) /\
    ((u2 - u1) * (v2 - v1) = RInt cos (rad deg d1) (rad deg d2) * (rad deg a2 - rad deg a1) / (4 * PI))%R.
Proof.
  intros deg a1 a2 d1 d2 HA1 HA2 HD1 HD2. pose proof PI_RGT_0 as HP. assert (T : (0 < full_turn deg)%R) by (unfold full_turn; destruct deg; lra).
  assert (SO : forall x, sin_of deg x = sin (rad deg x)) by (intros; unfold sin_of, rad; destruct deg; reflexivity).
  assert (RB : forall x, (- (full_turn deg / 4) <= x <= full_turn deg / 4 -> - (PI / 2) <= rad deg x <= PI / 2)%R).
  { intros x Hx. unfold rad, full_turn in *. destruct deg; [|lra]. assert (E : (x * PI / 180 = x * (PI / 180))%R) by (field). rewrite E. assert (0 < PI / 180)%R by lra.
    assert (M1 : (-90 * (PI / 180) <= x * (PI / 180))%R) by (apply Rmult_le_compat_r; lra). assert (M2 : (x * (PI / 180) <= 90 * (PI / 180))%R) by (apply Rmult_le_compat_r; lra). lra. }
  assert (RM : forall x y, (x <= y <-> rad deg x <= rad deg y)%R).
  { intros x y. unfold rad. destruct deg; [|tauto]. assert (E : forall x, (x * PI / 180 = x * (PI / 180))%R) by (intros; field). rewrite !E. split; intros H.
    - apply Rmult_le_compat_r; lra. - apply Rmult_le_reg_r in H; lra. }
  assert (SM : forall x y, (- (full_turn deg / 4) <= x <= full_turn deg / 4 -> - (full_turn deg / 4) <= y <= full_turn deg / 4 -> (x <= y <-> sin (rad deg x) <= sin (rad deg y)))%R).
  { intros x y Hx Hy. rewrite RM. apply RB in Hx, Hy. split; intros H.
    - destruct (Req_dec (rad deg x) (rad deg y)) as [->|N]; [lra|]. left. apply sin_increasing_1; lra.
    - destruct (Rle_dec (rad deg x) (rad deg y)) as [|N]; auto. apply Rnot_le_lt in N. assert (sin (rad deg y) < sin (rad deg x))%R by (apply sin_increasing_1; lra). lra. }
  pose proof (SIN_bound (rad deg d1)) as B1. pose proof (SIN_bound (rad deg d2)) as B2.
  assert (S12 : (sin (rad deg d1) <= sin (rad deg d2))%R) by (refine (proj1 (SM d1 d2 _ _) _); try split; lra).
  exists (a1 / full_turn deg)%R, (a2 / full_turn deg)%R, ((1 + sin (rad deg d1)) / 2)%R, ((1 + sin (rad deg d2)) / 2)%R.
  assert (IT : (0 < / full_turn deg)%R) by (now apply Rinv_0_lt_compat).
  split; [split; [apply Rmult_le_pos; lra|apply Rmult_le_compat_r; lra]|]. split; [apply Rmult_le_reg_r with (full_turn deg); auto; unfold Rdiv; rewrite Rmult_assoc, Rinv_l; lra|].
  split; [lra|]. split; [lra|]. split.
  - intros u v ra dec (-> & Hd & Hs). rewrite SO in Hs.
    assert (E1 : (a1 <= full_turn deg * u <-> a1 / full_turn deg <= u)%R).
    { split; intros H.
      - apply Rmult_le_reg_r with (full_turn deg); auto. unfold Rdiv. rewrite Rmult_assoc, Rinv_l; lra.
      - replace a1 with (full_turn deg * (a1 / full_turn deg))%R by (field; lra). apply Rmult_le_compat_l; lra. }
    assert (E2 : (full_turn deg * u <= a2 <-> u <= a2 / full_turn deg)%R).
    { split; intros H.
      - apply Rmult_le_reg_r with (full_turn deg); auto. unfold Rdiv. rewrite Rmult_assoc, Rinv_l; lra.
      - replace a2 with (full_turn deg * (a2 / full_turn deg))%R by (field; lra). apply Rmult_le_compat_l; lra. }
    rewrite E1, E2, (SM d1 dec), (SM dec d2) by (split; lra). rewrite Hs. split; intros [? ?]; split; lra.
  - assert (RI : RInt cos (rad deg d1) (rad deg d2) = (sin (rad deg d2) - sin (rad deg d1))%R).
    { apply is_RInt_unique. apply (is_RInt_derive (V := R_CompleteNormedModule) sin cos).
      - intros x _. apply is_derive_Reals. apply derivable_pt_lim_sin.
      - intros x _. apply continuity_pt_filterlim. apply continuity_cos. }
    rewrite RI. unfold rad, full_turn. destruct deg; field; lra.
Qed.
(** Concrete: two samples with a generator that counts. *)
Definition ex_units (n : nat) (g : nat) : list R * nat := (map (fun i => (/ INR (S (S (g + i))))%R) (seq 0 n), g + n).
Lemma ex_units_spec : unit_spec ex_units.
Proof.
  intros n g. unfold ex_units. cbn [fst]. split; [now rewrite map_length, seq_length|]. apply List.Forall_forall. intros x Hx. apply in_map_iff in Hx. destruct Hx as (i & <- & _).
  assert (H : (2 <= INR (S (S (g + i))))%R). { rewrite !S_INR. pose proof (pos_INR (g + i)). lra. }
  split; [left; apply Rinv_0_lt_compat; lra|]. rewrite <- Rinv_1. apply Rinv_lt_contravar; lra.
Qed.
Example C98_applies : exists ras decs a d u' rng' st', ur_compute ex_units (ur_init Z.to_nat "pos" 0 true) (gs_fresh 2) None = (u', rng', st', Ok (a, d)) /\
  has_values st' "pos" "ra" ras /\ has_values st' "pos" "dec" decs /\ nth_error ras 1 = Some 120%R /\ (exists dec, nth_error decs 0 = Some dec /\ (sin (dec * PI / 180) = - (1 / 2))%R) /\ un_own u' = 4.
Proof.
  assert (RF : reachable (gs_fresh (A := R) 2)) by (exists 2, []; split; [lia|reflexivity]).
  destruct (C98_samples ex_units (ur_init Z.to_nat "pos" 0 true) (gs_fresh 2) None ex_units_spec RF eq_refl) as (ras & decs & a & d & u' & rng' & st' & E & _ & _ & _ & _ & HP & _ & HA & HD & _ & EU & _).
  assert (NF : forall k, ~ fixed_in (gs_fresh (A := R) 2) "pos" k) by (intros k (l & H & _); discriminate).
  exists ras, decs, a, d, u', rng', st'. split; auto. split; [apply HA, NF|]. split; [apply HD, NF|].
  destruct (HP 1 _ _ eq_refl eq_refl) as (ra1 & dec1 & H1 & _ & P1). destruct (HP 0 _ _ eq_refl eq_refl) as (ra0 & dec0 & _ & H0 & P0).
  split; [rewrite H1; f_equal; destruct P1 as (-> & _); cbn; lra|]. split; [exists dec0; split; auto; destruct P0 as (_ & _ & P0); change (sin (dec0 * PI / 180) = 2 * / INR 4 - 1)%R in P0; rewrite P0; cbn; lra|]. rewrite EU. reflexivity.
Qed.
