(** What the nodes of [construct_snia_source] compute (SniaSourceModel.snia_func), entry by entry. *)
From Coq Require Import Reals String Ascii List Bool Arith ZArith Lia Lra.
From Verif Require Import Base BaseFacts RealBase ScipyModel ScipyProps SniaModel SniaProps GraphStateModel GraphStateProps NodeGraphModel SniaSourceModel.
Import ListNotations.
Open Scope string_scope.
Open Scope list_scope.
Open Scope nat_scope.

(** ** Packing *)
Lemma cells_pack : forall xs, cells (map (fun x => Atom (CNum x)) xs) = Some xs.
Proof. induction xs as [|x xs IH]; simpl; auto. now rewrite IH. Qed.
Lemma unpack_pack : forall n xs, length xs = n -> unpack n (pack n xs) = Some xs.
Proof.
  intros n xs HL. unfold unpack, pack. destruct (n =? 1) eqn:E.
  - apply Nat.eqb_eq in E. subst. destruct xs as [|x [|]]; try discriminate. reflexivity.
  - rewrite map_length, HL, Nat.eqb_refl. apply cells_pack.
Qed.
Lemma finite_some : forall xs, finite (map Some xs) = Some xs.
Proof. induction xs as [|x xs IH]; simpl; auto. now rewrite IH. Qed.
Lemma numbers_pack : forall n xs, length xs = n -> numbers n (pack n (map Some xs)) = Some xs.
Proof. intros n xs HL. unfold numbers. rewrite unpack_pack by now rewrite map_length. apply finite_some. Qed.
Lemma pack_inj : forall n xs ys, length xs = n -> length ys = n -> pack n xs = pack n ys -> xs = ys.
Proof. intros n xs ys H1 H2 E. apply (f_equal (unpack n)) in E. rewrite !unpack_pack in E by auto. now injection E. Qed.
Lemma pack_expands : forall n xs, 1 <= n -> length xs = n -> expands n (pack n xs) (pack n xs).
Proof.
  intros n xs HN HL. unfold expands. destruct (Nat.eq_dec n 1) as [->|NE]; [left; auto|]. right. split; auto. right.
  unfold pack. destruct (n =? 1) eqn:E; [apply Nat.eqb_eq in E; congruence|]. eexists. split; [reflexivity|]. split; auto. now rewrite map_length.
Qed.
Lemma const_pack : forall n x, 1 <= n -> (if n =? 1 then num x else GraphStateModel.Arr (repeat (num x) n)) = pack n (map Some (repeat x n)).
Proof.
  intros n x HN. unfold pack. destruct (n =? 1) eqn:E.
  - apply Nat.eqb_eq in E. subst. reflexivity.
  - f_equal. clear. induction n; simpl; auto. now rewrite IHn.
Qed.

Lemma nth_repeat_some : forall X (x : X) n i, i < n -> nth_error (repeat x n) i = Some x.
Proof. intros X x n. induction n as [|n IH]; intros [|i] H; simpl; auto; try lia. apply IH. lia. Qed.
Lemma nth_lt : forall X (l : list X) i, i < length l -> exists x, nth_error l i = Some x.
Proof. intros X l i H. destruct (nth_error l i) eqn:E; eauto. apply nth_error_None in E. lia. Qed.

Open Scope R_scope.
Section F.
Context (norm : (nat -> R) -> nat -> R * nat) (own : nat -> nat -> R) (given : option (nat -> R)).
Context (h : nheap cell) (pa : parts) (n : nat).
Hypothesis HN : (1 <= n)%nat.
Notation func := (snia_func norm own given h pa n).
(** The stream node [i] takes its numbers from. *)
Definition stream_of (i : nat) : nat -> R := match given with Some s => s | None => own i end.

(** How many numbers of that stream have been taken, and what a call of node [i] that leaves [k] of them taken does to the world. *)
Definition spot (w : world) (i : nat) : nat := match given with Some _ => w_given w | None => w_own w i end.
Definition moved (w : world) (i k : nat) (w' : world) : Prop :=
  spot w' i = k /\ match given with Some _ => w_own w' = w_own w | None => w_given w' = w_given w /\ forall j, j <> i -> w_own w' j = w_own w j end.

Lemma with_rng_run : forall X (w : world) i (draw : gen -> X * gen),
  exists w', with_rng own given w i draw = (fst (draw (mkGen (stream_of i) (spot w i))), w') /\ moved w i (g_pos (snd (draw (mkGen (stream_of i) (spot w i))))) w'.
Proof.
  intros X w i draw. unfold with_rng, stream_of, moved, spot. destruct given as [s|].
  - destruct (draw (mkGen s (w_given w))) as [x g] eqn:E. simpl. eexists. split; [reflexivity|]. simpl. auto.
  - destruct (draw (mkGen (own i) (w_own w i))) as [x g] eqn:E. simpl. eexists. split; [reflexivity|]. simpl. rewrite Nat.eqb_refl. split; auto. split; auto.
    intros j Hj. apply Nat.eqb_neq in Hj. now rewrite Hj.
Qed.
(** The position after [k] normal numbers from [p] on: numpy may take several numbers for one. *)
Definition after_normals (s : nat -> R) (p k : nat) : nat := Nat.iter k (fun q => snd (norm s q)) p.
Lemma uniforms_spec : forall lo hi g, length hi = length lo ->
  length (fst (uniforms lo hi g)) = length lo /\
  forall i a b, nth_error lo i = Some a -> nth_error hi i = Some b ->
    nth_error (fst (uniforms lo hi g)) i = Some (a + (b - a) * g_stream g (g_pos g + i)).
Proof.
  intros lo hi g HL. unfold uniforms, take. cbn [fst]. split.
  - rewrite map_length, !combine_length, map_length, seq_length. lia.
  - intros i a b Ha Hb. assert (L : (i < length lo)%nat) by (apply nth_error_Some; congruence).
    rewrite nth_error_map.
    assert (C : forall X Y (l : list X) (k : list Y) j x y, nth_error l j = Some x -> nth_error k j = Some y -> nth_error (combine l k) j = Some (x, y)).
    { induction l as [|u l IH]; intros [|v k] [|j] x y H1 H2; simpl in *; try discriminate; [congruence|]. now apply IH. }
    rewrite (C _ _ _ _ i (a, b) (g_stream g (g_pos g + i)%nat)); [reflexivity|now apply C|].
    rewrite nth_error_map. replace (nth_error (seq 0 (length lo)) i) with (Some i); auto.
    symmetry. rewrite (nth_error_nth' _ 0%nat) by now rewrite seq_length. now rewrite seq_nth.
Qed.
Lemma normals_spec : forall ps g,
  length (fst (normals norm ps g)) = length ps /\ g_pos (snd (normals norm ps g)) = after_normals (g_stream g) (g_pos g) (length ps) /\
  forall i a b, nth_error ps i = Some (a, b) -> nth_error (fst (normals norm ps g)) i = Some (a + b * fst (norm (g_stream g) (after_normals (g_stream g) (g_pos g) i))).
Proof.
  induction ps as [|[a b] ps IH]; intros g.
  - split; auto. split; auto. intros [|i] a b H; discriminate.
  - cbn [normals]. destruct (norm (g_stream g) (g_pos g)) as [z p] eqn:E.
    destruct (normals norm ps (mkGen (g_stream g) p)) as [xs g'] eqn:EN. specialize (IH (mkGen (g_stream g) p)). rewrite EN in IH. cbn [fst snd g_stream g_pos] in *.
    destruct IH as (L & LP & IH). split; [simpl; congruence|].
    assert (NX : forall k, after_normals (g_stream g) (g_pos g) (S k) = after_normals (g_stream g) p k).
    { induction k as [|k IHk]; [unfold after_normals; simpl; now rewrite E|]. change (snd (norm (g_stream g) (after_normals (g_stream g) (g_pos g) (S k))) = snd (norm (g_stream g) (after_normals (g_stream g) p k))). now rewrite IHk. }
    split. { cbn [length]. now rewrite NX. }
    intros [|i] a' b' H; cbn [nth_error] in *.
    + injection H as <- <-. unfold after_normals. cbn [Nat.iter nat_rect]. now rewrite E.
    + rewrite NX. now apply IH.
Qed.
Lemma combine_nth_some : forall X Y (l : list X) (k : list Y) j x y, nth_error l j = Some x -> nth_error k j = Some y -> nth_error (combine l k) j = Some (x, y).
Proof. intros X Y. induction l as [|u l IH]; intros [|v k] [|j] x y H1 H2; simpl in *; try discriminate; [congruence|]. now apply IH. Qed.

(** ** The classes *)
Lemma run_uniform : forall w i nd args lo hi, nth_error h i = Some nd -> nd_class nd = "NumpyRandomFunc" -> nd_func nd = Some "uniform" ->
  dget "low" args = Some (pack n (map Some lo)) -> dget "high" args = Some (pack n (map Some hi)) -> length lo = n -> length hi = n ->
  exists w' out, func w i args = (w', Ok (pack n (map Some out))) /\ length out = n /\
    (forall j a b, nth_error lo j = Some a -> nth_error hi j = Some b -> nth_error out j = Some (a + (b - a) * stream_of i (spot w i + j))) /\
    moved w i (spot w i + n) w'.
Proof using HN.
  intros w i nd args lo hi En EC EF E1 E2 L1 L2. unfold snia_func. rewrite En, EC, EF. cbn [String.eqb Ascii.eqb Bool.eqb].
  unfold two_args. rewrite E1, E2, !numbers_pack by auto.
  destruct (with_rng_run _ w i (uniforms lo hi)) as (w' & -> & MV). eexists w', _. split; [reflexivity|].
  destruct (uniforms_spec lo hi (mkGen (stream_of i) (spot w i))) as [L H]; [congruence|]. split; [congruence|].
  split; [|unfold uniforms, take in MV; cbn [snd g_pos] in MV; now rewrite L1 in MV].
  intros j a b Ha Hb. rewrite (H j a b Ha Hb). reflexivity.
Qed.
Lemma run_normal : forall w i nd args lo sc, nth_error h i = Some nd -> nd_class nd = "NumpyRandomFunc" -> nd_func nd = Some "normal" ->
  dget "loc" args = Some (pack n (map Some lo)) -> dget "scale" args = Some (pack n (map Some sc)) -> length lo = n -> length sc = n ->
  exists w' out, func w i args = (w', Ok (pack n (map Some out))) /\ length out = n /\
    (forall j a b, nth_error lo j = Some a -> nth_error sc j = Some b -> nth_error out j = Some (a + b * fst (norm (stream_of i) (after_normals (stream_of i) (spot w i) j)))) /\
    moved w i (after_normals (stream_of i) (spot w i) n) w'.
Proof using HN.
  intros w i nd args lo sc En EC EF E1 E2 L1 L2. unfold snia_func. rewrite En, EC, EF. cbn [String.eqb Ascii.eqb Bool.eqb].
  unfold two_args. rewrite E1, E2, !numbers_pack by auto.
  destruct (with_rng_run _ w i (normals norm (combine lo sc))) as (w' & -> & MV). eexists w', _. split; [reflexivity|].
  destruct (normals_spec (combine lo sc) (mkGen (stream_of i) (spot w i))) as (L & LP & H). split; [rewrite L, combine_length; lia|].
  split; [|rewrite LP, combine_length, L1, L2, Nat.min_id in MV; exact MV].
  intros j a b Ha Hb. apply H. now apply combine_nth_some.
Qed.
Lemma run_pdf : forall w i nd args, nth_error h i = Some nd -> nd_class nd = "SamplePDF" ->
  exists w' out, func w i args = (w', Ok (pack n (map Some out))) /\ length out = n /\
    (forall j, (j < n)%nat -> nth_error out j = Some (pa_zinv pa (stream_of i (spot w i + j)))) /\
    moved w i (spot w i + n) w'.
Proof using HN.
  intros w i nd args En EC. unfold snia_func. rewrite En, EC. cbn [String.eqb Ascii.eqb Bool.eqb].
  destruct (with_rng_run _ w i (rvs (pa_zinv pa) n)) as (w' & -> & MV). eexists w', _. split; [reflexivity|].
  unfold rvs in *. set (g := mkGen (stream_of i) (spot w i)) in *.
  assert (T := fun j => take_nth g n j). assert (LT : length (fst (take g n)) = n) by (unfold take; cbn [fst]; now rewrite map_length, seq_length).
  assert (PT : g_pos (snd (take g n)) = (spot w i + n)%nat) by reflexivity.
  destruct (take g n) as [us g'] eqn:E. cbn [fst snd] in *. split; [now rewrite map_length|]. rewrite PT in MV. split; auto.
  intros j Hj. rewrite nth_error_map, T by auto. reflexivity.
Qed.
(** The number of the stream that sample [j] of x1 gets: those of massive hosts come first. *)
Definition x1_number (mass : list R) (j : nat) : nat := if (n =? 1)%nat then 0%nat else number_of mass j (nth j mass 0).
Lemma x1_number_distinct : forall mass, length mass = n ->
  (forall j, (j < n)%nat -> (x1_number mass j < n)%nat) /\ (forall j k, (j < n)%nat -> (k < n)%nat -> x1_number mass j = x1_number mass k -> j = k).
Proof.
  intros mass L. unfold x1_number. destruct (n =? 1)%nat eqn:E.
  - apply Nat.eqb_eq in E. split; intros; lia.
  - apply Nat.eqb_neq in E.
    assert (X : forall j, (j < n)%nat -> nth_error mass j = Some (nth j mass 0)) by (intros j Hj; apply nth_error_nth'; lia).
    split.
    + intros j Hj. set (k := if (j =? 0)%nat then 1%nat else 0%nat). assert (HK : (k < n)%nat /\ j <> k) by (unfold k; destruct (Nat.eqb_spec j 0); lia).
      rewrite <- L. apply (C83_x1_distinct mass j k _ _ (X j Hj) (X k (proj1 HK)) (proj2 HK)).
    + intros j k Hj Hk EQ. destruct (Nat.eq_dec j k) as [|NE]; auto. now destruct (C83_x1_distinct mass j k _ _ (X j Hj) (X k Hk) NE).
Qed.
Lemma run_x1 : forall w i nd args mass, nth_error h i = Some nd -> nd_class nd = "HostmassX1Func" ->
  dget "hostmass" args = Some (pack n (map Some mass)) -> length mass = n ->
  exists w' out, func w i args = (w', Ok (pack n (map Some out))) /\ length out = n /\
    (forall j m, nth_error mass j = Some m -> nth_error out j = Some ((if Rltb m 10 then x1_lt (pa_x1 pa) else x1_ge (pa_x1 pa)) (stream_of i (spot w i + x1_number mass j)))) /\
    moved w i (spot w i + n) w'.
Proof using HN.
  intros w i nd args mass En EC E1 L1. unfold snia_func. rewrite En, EC. cbn [String.eqb Ascii.eqb Bool.eqb]. rewrite E1, numbers_pack by auto.
  destruct (with_rng_run _ w i (x1_run (pa_x1 pa) mass)) as (w' & -> & MV). eexists w', _. split; [reflexivity|].
  destruct (x1_run (pa_x1 pa) mass (mkGen (stream_of i) (spot w i))) as [r g'] eqn:E. cbn [fst snd] in *.
  destruct (C83_x1_samples _ _ _ _ _ E) as (EG & S1 & S2); [lia|]. rewrite EG in MV. cbn [g_pos] in MV. rewrite L1 in MV.
  assert (NO : forall j m, nth_error mass j = Some m -> nth j mass 0 = m) by (intros j m H; now apply nth_error_nth).
  assert (HV : forall m, (if heavy m then x1_ge (pa_x1 pa) else x1_lt (pa_x1 pa)) = (if Rltb m 10 then x1_lt (pa_x1 pa) else x1_ge (pa_x1 pa))).
  { intros m. unfold heavy. destruct (Rleb 10 m) eqn:A; destruct (Rltb m 10) eqn:B; auto.
    - apply Rleb_true in A. apply Rltb_true in B. lra.
    - apply Rleb_false in A. apply Rltb_false in B. lra. }
  destruct (Nat.eq_dec n 1) as [N1|N1].
  - destruct mass as [|m [|]]; simpl in L1; try lia. rewrite (S1 m eq_refl). split; [simpl; lia|]. split; auto.
    intros [|j] m' Hm; [|destruct j; discriminate]. injection Hm as <-. cbn [outcome_list nth_error]. rewrite HV. unfold x1_number. rewrite N1. cbn [Nat.eqb g_stream g_pos]. now rewrite Nat.add_0_r.
  - destruct S2 as (xs & -> & LX & HX); [clear - N1 HN L1; lia|]. split; [simpl; congruence|]. split; auto. intros j m Hm. cbn [outcome_list]. rewrite (HX j m Hm), HV.
    unfold x1_number. apply Nat.eqb_neq in N1. rewrite N1, (NO j m Hm). reflexivity.
Qed.
Lemma run_distmod : forall w i nd args zs, nth_error h i = Some nd -> nd_class nd = "DistModFromRedshift" ->
  dget "redshift" args = Some (pack n (map Some zs)) -> length zs = n ->
  exists w', func w i args = (w', Ok (pack n (map (distmod 73 (3 / 10)) zs))).
Proof using HN.
  intros w i nd args zs En EC E1 L1. unfold snia_func. rewrite En, EC. cbn [String.eqb Ascii.eqb Bool.eqb].
  rewrite E1, unpack_pack by now rewrite map_length. rewrite map_map. eauto.
Qed.
Lemma map6_spec : forall f a b c d e m, length b = length a -> length c = length a -> length d = length a -> length e = length a -> length m = length a ->
  length (map6 f a b c d e m) = length a /\
  forall j a1 b1 c1 d1 e1 m1, nth_error a j = Some a1 -> nth_error b j = Some b1 -> nth_error c j = Some c1 -> nth_error d j = Some d1 ->
    nth_error e j = Some e1 -> nth_error m j = Some m1 -> nth_error (map6 f a b c d e m) j = Some (f a1 b1 c1 d1 e1 m1).
Proof.
  intros f. induction a as [|a1 a IH]; intros [|b1 b] [|c1 c] [|d1 d] [|e1 e] [|m1 m] L1 L2 L3 L4 L5; try discriminate.
  - split; auto. intros [|j]; discriminate.
  - simpl in *. destruct (IH b c d e m) as [L H]; try lia. split; [congruence|]. intros [|j] a2 b2 c2 d2 e2 m2 H1 H2 H3 H4 H5 H6; simpl in *; [congruence|auto].
Qed.
Lemma run_x0 : forall w i nd args mu x1 c al be ma, nth_error h i = Some nd -> nd_class nd = "X0FromDistMod" ->
  dget "distmod" args = Some (pack n mu) -> dget "x1" args = Some (pack n x1) -> dget "c" args = Some (pack n c) ->
  dget "alpha" args = Some (pack n al) -> dget "beta" args = Some (pack n be) -> dget "m_abs" args = Some (pack n ma) ->
  length mu = n -> length x1 = n -> length c = n -> length al = n -> length be = n -> length ma = n ->
  exists w' out, func w i args = (w', Ok (pack n out)) /\ length out = n /\
    forall j mu' x1' c' al' be' ma', nth_error mu j = Some mu' -> nth_error x1 j = Some x1' -> nth_error c j = Some c' -> nth_error al j = Some al' ->
      nth_error be j = Some be' -> nth_error ma j = Some ma' -> nth_error out j = Some (x0_cell mu' x1' c' al' be' ma').
Proof using HN.
  intros w i nd args mu x1 c al be ma En EC E1 E2 E3 E4 E5 E6 L1 L2 L3 L4 L5 L6. unfold snia_func. rewrite En, EC. cbn [String.eqb Ascii.eqb Bool.eqb].
  unfold six_args. rewrite E1, E2, E3, E4, E5, E6, !unpack_pack by auto. exists w. eexists. split; [reflexivity|].
  destruct (map6_spec x0_cell mu x1 c al be ma) as [L H]; try congruence. split; [congruence|]. intros. now apply H.
Qed.
(** Every call moves only the generator of its node, or the given one, and never backwards if normal numbers do not. *)
Hypothesis FWD : forall s p, (p <= snd (norm s p))%nat.
Lemma after_normals_le : forall s p k, (p <= after_normals s p k)%nat.
Proof using FWD. intros s p k. induction k as [|k IH]; [apply le_n|]. unfold after_normals in *. cbn [Nat.iter nat_rect]. eapply Nat.le_trans; [exact IH|apply FWD]. Qed.
End F.
Section G.
Context (norm : (nat -> R) -> nat -> R * nat) (own : nat -> nat -> R) (given : option (nat -> R)).
Context (h : nheap cell) (pa : parts) (n : nat).
Lemma moved_refl : forall w i, moved given w i (spot given w i) w.
Proof. intros w i. unfold moved. split; auto. destruct given; auto. Qed.
Lemma func_moves : forall w i args w' r, snia_func norm own given h pa n w i args = (w', r) -> moved given w i (spot given w' i) w'.
Proof.
  intros w i args w' r H. unfold snia_func in H. destruct (nth_error h i) as [nd|]; [|injection H as <- <-; apply moved_refl].
  assert (D : forall X (draw : gen -> X * gen) x v, with_rng own given w i draw = (x, v) -> moved given w i (spot given v i) v).
  { intros X draw x v E. destruct (with_rng_run own given X w i draw) as (v' & E' & M). rewrite E' in E. injection E as <- <-. destruct M as [M1 M2]. split; auto. }
  repeat match type of H with
  | (let (_, _) := ?e in _) = _ => let E := fresh "E" in destruct e eqn:E; apply D in E; injection H as <- <-; exact E
  | (if ?e then _ else _) = _ => destruct e
  | context [match ?e with _ => _ end] => destruct e
  end; try (injection H as <- <-; apply moved_refl).
Qed.
Lemma func_forward : forall (s : nat -> R), (1 <= n)%nat -> (forall s p, (p <= snd (norm s p))%nat) -> forall w i args w' r,
  snia_func norm own (Some s) h pa n w i args = (w', Ok r) -> (w_given w <= w_given w')%nat.
Proof.
  intros s HN FWD w i args w' r H. unfold snia_func in H. destruct (nth_error h i) as [nd|]; [|discriminate].
  assert (D : forall X (draw : gen -> X * gen) x v, (forall g, (g_pos g <= g_pos (snd (draw g)))%nat) -> with_rng own (Some s) w i draw = (x, v) -> (w_given w <= w_given v)%nat).
  { intros X draw x v L E. destruct (with_rng_run own (Some s) X w i draw) as (v' & E' & [M _]). rewrite E' in E. injection E as <- <-. cbn [spot] in M. rewrite M. apply (L (mkGen _ _)). }
  assert (NUM : forall v l, numbers n v = Some l -> length l = n).
  { intros v l E. unfold numbers in E. destruct (unpack n v) as [xs|] eqn:EU; [|discriminate].
    assert (L1 : length xs = n).
    { assert (CL : forall l ys, cells l = Some ys -> length ys = length l).
      { induction l0 as [|a l0 IH]; intros ys E0; simpl in E0; [injection E0 as <-; auto|]. destruct (cell_num a); [|discriminate]. destruct (cells l0); [|discriminate].
        injection E0 as <-. simpl. now rewrite (IH _ eq_refl). }
      unfold unpack in EU. destruct (n =? 1)%nat eqn:E1; [apply Nat.eqb_eq in E1; rewrite (CL _ _ EU); simpl; auto|].
      destruct v as [|l0]; [discriminate|]. destruct (length l0 =? n)%nat eqn:E2; [|discriminate]. apply Nat.eqb_eq in E2. now rewrite (CL _ _ EU). }
    rewrite <- L1. clear - E. revert l E. induction xs as [|[x|] xs IH]; intros l E; simpl in E; [injection E as <-; auto| |discriminate].
    destruct (finite xs); [|discriminate]. injection E as <-. simpl. now rewrite (IH _ eq_refl). }
  assert (UN : forall lo hi g, (g_pos g <= g_pos (snd (uniforms lo hi g)))%nat) by (intros; unfold uniforms, take; cbn [snd g_pos]; lia).
  assert (NO : forall ps g, (g_pos g <= g_pos (snd (normals norm ps g)))%nat).
  { intros ps g. destruct (normals_spec norm ps g) as (_ & -> & _). now apply after_normals_le. }
  assert (RV : forall q k g, (g_pos g <= g_pos (snd (rvs q k g)))%nat) by (intros; unfold rvs, take; cbn [snd g_pos]; lia).
  assert (XR : forall ms, length ms = n -> forall g, (g_pos g <= g_pos (snd (x1_run (pa_x1 pa) ms g)))%nat).
  { intros ms L g. destruct (x1_run (pa_x1 pa) ms g) as [o g'] eqn:E. destruct (C83_x1_samples _ _ _ _ _ E) as (-> & _); [lia|]. cbn [snd g_pos]. lia. }
  destruct (String.eqb (nd_class nd) "NumpyRandomFunc").
  { destruct (match nd_func nd with Some f => String.eqb f "uniform" | None => false end).
    - destruct (two_args n args "low" "high") as [[lo hi]|]; [|discriminate]. destruct (with_rng own (Some s) w i (uniforms lo hi)) as [xs v] eqn:E. injection H as <- <-. eapply D; [|exact E]. auto.
    - destruct (two_args n args "loc" "scale") as [[lo hi]|]; [|discriminate]. destruct (with_rng own (Some s) w i (normals norm (combine lo hi))) as [xs v] eqn:E. injection H as <- <-. eapply D; [|exact E]. auto. }
  destruct (String.eqb (nd_class nd) "SamplePDF").
  { destruct (with_rng own (Some s) w i (rvs (pa_zinv pa) n)) as [xs v] eqn:E. injection H as <- <-. eapply D; [|exact E]. auto. }
  destruct (String.eqb (nd_class nd) "HostmassX1Func").
  { destruct (dget "hostmass" args) as [v|]; [|discriminate]. destruct (numbers n v) as [ms|] eqn:EN; [|discriminate].
    destruct (with_rng own (Some s) w i (x1_run (pa_x1 pa) ms)) as [o v'] eqn:E. injection H as <- <-. eapply D; [|exact E]. apply XR. eauto. }
  repeat match type of H with
  | (if ?e then _ else _) = _ => destruct e
  | context [match ?e with _ => _ end] => destruct e
  end; try discriminate; injection H as <- <-; auto.
Qed.
End G.
