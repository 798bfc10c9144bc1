(** C82: sampling from a density (NumericalInversePolynomialFunc, SamplePDF, SampleLogPDF). *)
From Coq Require Import Reals String List Bool Arith ZArith Lia Lra.
From Coquelicot Require Import Coquelicot.
From Verif Require Import Base BaseFacts GraphStateModel GraphStateProps ScipyModel.
Import ListNotations.
Open Scope R_scope.

(** ** Specification *)
(** The values of the parameters in sample [i]: entry [i] of each array. *)
Definition of_sample {A} (a : dict (list A)) (i : nat) (d : dict A) : Prop :=
  forall k, dget k d = match dget k a with Some l => nth_error l i | None => None end.
(** [q] is the sampling function that the class gives for parameters [d]: scipy's inverse for the density of the object. *)
Definition class_inverse {A} (pinv : (R -> R) -> result (R -> R)) (make : dict A -> result pyobj) (d : dict A) (q : R -> R) : Prop :=
  exists o f, make d = Ok o /\ density o = Some f /\ pinv f = Ok q.
(** [F] is the distribution function of the density [f] (which need not be normalised: [total]). *)
Definition distribution (f F : R -> R) (total : R) : Prop :=
  0 < total /\ (forall x, 0 <= f x) /\ (forall x y, x <= y -> is_RInt f x y (total * (F y - F x))).
(** [q] inverts [F] with an error below [eps] in probability (scipy's u-resolution). *)
Definition inverts (F q : R -> R) (eps : R) : Prop := forall u, 0 <= u <= 1 -> Rabs (F (q u) - u) <= eps.

Section P.
Context {A : Type} (pinv : (R -> R) -> result (R -> R)).
Implicit Types (g : gen) (make : dict A -> result pyobj).

Lemma take_nth : forall g n i, (i < n)%nat -> nth_error (fst (take g n)) i = Some (g_stream g (g_pos g + i)).
Proof.
  intros g n i Hi. unfold take. cbn [fst]. rewrite nth_error_map. rewrite (nth_error_nth' _ 0%nat) by (now rewrite seq_length).
  rewrite seq_nth by auto. reflexivity.
Qed.
Lemma class_inverse_iff : forall make d q, class_inverse pinv make d q <-> bind (make d) (inverse pinv) = Ok q.
Proof.
  intros make d q. unfold class_inverse, inverse. split.
  - intros (o & f & H1 & H2 & H3). rewrite H1. simpl. now rewrite H2.
  - destruct (make d) as [o|] eqn:E; simpl; [|discriminate]. destruct (density o) as [f|] eqn:D; [|discriminate]. eauto 6.
Qed.
Lemma create_ok : forall make d q g, class_inverse pinv make d q ->
  create_and_sample pinv make d g = (Ok (q (g_stream g (g_pos g))), mkGen (g_stream g) (g_pos g + 1)).
Proof. intros make d q g H. apply class_inverse_iff in H. unfold create_and_sample. rewrite H. unfold rvs, take. simpl. now rewrite Nat.add_0_r. Qed.
Lemma create_inv : forall make d g x g', create_and_sample pinv make d g = (Ok x, g') ->
  exists q, class_inverse pinv make d q /\ x = q (g_stream g (g_pos g)) /\ g' = mkGen (g_stream g) (g_pos g + 1).
Proof.
  intros make d g x g' H. destruct (bind (make d) (inverse pinv)) as [q|e] eqn:E.
  - exists q. apply class_inverse_iff in E. split; auto. rewrite (create_ok _ _ _ g E) in H. injection H as <- <-. auto.
  - unfold create_and_sample in H. rewrite E in H. discriminate.
Qed.
Lemma each_inv : forall make l g xs g', each pinv make l g = (Ok xs, g') ->
  length xs = length l /\ g' = mkGen (g_stream g) (g_pos g + length l) /\
  forall i d, nth_error l i = Some d -> exists q, class_inverse pinv make d q /\ nth_error xs i = Some (q (g_stream g (g_pos g + i))).
Proof.
  intros make l. induction l as [|a l IH]; intros g xs g' H; simpl in H.
  - injection H as <- <-. split; auto. split. { rewrite Nat.add_0_r. now destruct g. } intros [|i] d Hd; discriminate.
  - destruct (create_and_sample pinv make a g) as [[x|e] g1] eqn:E; [|discriminate]. apply create_inv in E. destruct E as (q & C & -> & ->).
    destruct (each pinv make l _) as [[ys|e] g2] eqn:E2; [|discriminate]. injection H as <- <-. apply IH in E2. destruct E2 as (L & G & N). cbn [g_stream g_pos] in *.
    split; [simpl; now rewrite L|]. split. { rewrite G. simpl. f_equal. lia. }
    intros [|i] d Hd; simpl in Hd.
    + injection Hd as <-. exists q. rewrite Nat.add_0_r. auto.
    + destruct (N i d Hd) as (q' & C' & X). exists q'. split; auto. simpl. rewrite X. do 2 f_equal. f_equal. lia.
Qed.
Lemma each_ok : forall make l g, (forall d, In d l -> exists q, class_inverse pinv make d q) -> exists xs g', each pinv make l g = (Ok xs, g').
Proof.
  intros make l. induction l as [|a l IH]; intros g H; simpl; [eauto|].
  destruct (H a (or_introl eq_refl)) as (q & C). rewrite (create_ok _ _ _ g C). destruct (IH (mkGen (g_stream g) (g_pos g + 1))) as (ys & g2 & E2).
  { intros d Hd. apply H. now right. } rewrite E2. eauto.
Qed.

(** ** The theorems *)
(** The constructor accepts exactly what has a pdf or a logpdf (and, for an object, what scipy can invert). *)
Theorem C82_accepted : forall (d : darg (A := A)) stream,
  (inv_make pinv d stream = Err ValueError /\ match d with DObj o => o_pdf o = None /\ o_logpdf o = None | DClass p l _ => p = false /\ l = false end) \/
  match d with
  | DObj o => exists f, density o = Some f /\ inv_make pinv d stream = match pinv f with Ok q => Ok (mkNode (Fixed q) (fresh stream)) | Err e => Err e end
  | DClass p l make => (p = true \/ l = true) /\ inv_make pinv d stream = Ok (mkNode (Class make) (fresh stream))
  end.
Proof.
  intros [o|p l make] stream; unfold inv_make, has_density, inverse.
  - destruct (density o) as [ff|] eqn:E; simpl.
    + right. exists ff. split; auto.
    + left. split; auto. unfold density in E. destruct (o_pdf o), (o_logpdf o); try discriminate. auto.
  - destruct p, l; simpl; auto.
Qed.
(** Objects with a density and plain functions: SamplePDF samples the given density, SampleLogPDF its exponential; anything that
    cannot be called and has no such method is refused. *)
Theorem C82_sample_pdf : forall stream,
  (forall f, @sample_pdf A pinv (DObj (mkObj None None (Some f))) stream = match pinv f with Ok q => Ok (mkNode (Fixed q) (fresh stream)) | Err e => Err e end) /\
  (forall f, @sample_logpdf A pinv (DObj (mkObj None None (Some f))) stream =
     match pinv (fun x => exp (f x)) with Ok q => Ok (mkNode (Fixed q) (fresh stream)) | Err e => Err e end) /\
  (forall f l c, @sample_pdf A pinv (DObj (mkObj (Some f) l c)) stream = match pinv f with Ok q => Ok (mkNode (Fixed q) (fresh stream)) | Err e => Err e end) /\
  (forall f c, @sample_logpdf A pinv (DObj (mkObj None (Some f) c)) stream =
     match pinv (fun x => exp (f x)) with Ok q => Ok (mkNode (Fixed q) (fresh stream)) | Err e => Err e end) /\
  (forall l, @sample_pdf A pinv (DObj (mkObj None l None)) stream = Err ValueError) /\
  (forall p, @sample_logpdf A pinv (DObj (mkObj p None None)) stream = Err ValueError).
Proof.
  intros stream. repeat match goal with |- _ /\ _ => split end; intros; unfold sample_pdf, sample_logpdf, inv_make, has_density, inverse; cbn;
    try (match goal with |- context[pinv ?f] => destruct (pinv f) end); reflexivity.
Qed.
(** An object: sample [i] is the inverse at the [i]-th next number of the generator; one sample is a number, several an array. *)
Theorem C82_object : forall q n inp g, (1 <= n)%nat ->
  let us := map (fun i => g_stream g (g_pos g + i)%nat) (seq 0 n) in
  run (A := A) pinv (Fixed q) n inp g =
    (Ok (if (n =? 1)%nat then Num (q (g_stream g (g_pos g))) else Arr (map q us)), mkGen (g_stream g) (g_pos g + n)).
Proof.
  intros q n inp g Hn us. unfold run, rvs, take. destruct n as [|[|n]]; [lia| |].
  - simpl. now rewrite Nat.add_0_r.
  - cbn [Nat.eqb]. fold us. destruct us; reflexivity.
Qed.
(** A class, one sample. *)
Theorem C82_class_one : forall make a g,
  (forall q, class_inverse pinv make a q -> run pinv (Class make) 1 (Single a) g = (Ok (Num (q (g_stream g (g_pos g)))), mkGen (g_stream g) (g_pos g + 1))) /\
  (forall r g', run pinv (Class make) 1 (Single a) g = (Ok r, g') -> exists q, class_inverse pinv make a q).
Proof.
  intros make a g. unfold run. split.
  - intros q C. now rewrite (create_ok _ _ _ g C).
  - intros r g' H. destruct (create_and_sample pinv make a g) as [[x|e] g1] eqn:E; [|discriminate]. apply create_inv in E. destruct E as (q & C & _). eauto.
Qed.
(** A class, several samples: sample [i] has the inverse for its own parameters, at its own number of the generator. *)
Theorem C82_class : forall make n a g r g', (2 <= n)%nat -> NoDup (dkeys a) -> run pinv (Class make) n (Arrays a) g = (Ok r, g') ->
  exists xs, r = Arr xs /\ length xs = n /\ g' = mkGen (g_stream g) (g_pos g + n + 1) /\
  forall i, (i < n)%nat -> exists d q, of_sample a i d /\ class_inverse pinv make d q /\ nth_error xs i = Some (q (g_stream g (g_pos g + 1 + i))).
Proof.
  intros make n a g r g' Hn ND H. unfold run in H. destruct n as [|[|n]]; try lia. set (m := S (S n)) in *.
  assert (H' : match transpose_dict_of_list a (Z.of_nat m) with
          | Err e => (Err e, g)
          | Ok l => match vectorized pinv make l g with (r, g') => (bind r (fun xs => Ok (Arr xs)), g') end
          end = (Ok r, g')) by exact H. clear H.
  destruct (transpose_dict_of_list a (Z.of_nat m)) as [l|e] eqn:T; [|discriminate].
  destruct (C13_transpose _ _ _ _ ND T) as (L & N). rewrite Nat2Z.id in L.
  destruct (vectorized pinv make l g) as [[xs|e] g1] eqn:V; [|discriminate]. simpl in H'. injection H' as <- <-.
  unfold vectorized in V. destruct l as [|d0 l0]; [discriminate|]. destruct (create_and_sample pinv make d0 g) as [[x|e] g2] eqn:C; [|discriminate].
  apply create_inv in C. destruct C as (q0 & _ & _ & ->). apply each_inv in V. destruct V as (LX & G & NX). cbn [g_stream g_pos] in *.
  exists xs. split; auto. split; [lia|]. split. { rewrite G, L. f_equal. lia. }
  intros i Hi. destruct (nth_error (d0 :: l0) i) as [d|] eqn:E. 2:{ apply nth_error_None in E. lia. }
  destruct (NX i d E) as (q & CI & X). exists d, q. split; [exact (N i d E)|]. auto.
Qed.
(** It succeeds when every array has one entry per sample and every sample's parameters give a density scipy can invert; arrays of
    other lengths raise ValueError. *)
Theorem C82_class_defined : forall make n a g, (2 <= n)%nat -> NoDup (dkeys a) ->
  ((forall k l, In (k, l) a -> length l = n) ->
   (forall i d, (i < n)%nat -> of_sample a i d -> exists q, class_inverse pinv make d q) -> exists xs g', run pinv (Class make) n (Arrays a) g = (Ok (Arr xs), g')) /\
  (forall k l, In (k, l) a -> length l <> n -> run pinv (Class make) n (Arrays a) g = (Err ValueError, g)).
Proof.
  intros make n a g Hn ND. destruct n as [|[|n]]; try lia. set (m := S (S n)) in *.
  assert (U : run pinv (Class make) m (Arrays a) g = match transpose_dict_of_list a (Z.of_nat m) with
          | Err e => (Err e, g)
          | Ok l => match vectorized pinv make l g with (r, g') => (bind r (fun xs => Ok (Arr xs)), g') end
          end) by reflexivity. rewrite U.
  destruct (C13_transpose_raises_iff _ a (Z.of_nat m)) as [TI TV].
  destruct (transpose_dict_of_list a (Z.of_nat m)) as [l|e] eqn:T.
  - destruct (C13_transpose _ _ _ _ ND T) as (L & N). rewrite Nat2Z.id in L. split.
    + intros LN HD. assert (AL : forall d, In d l -> exists q, class_inverse pinv make d q).
      { intros d Hd. destruct (In_nth_error _ _ Hd) as [i Hi]. apply (HD i d); [|exact (N i d Hi)]. assert (X : nth_error l i <> None) by congruence. apply nth_error_Some in X. lia. }
      destruct l as [|d0 l0]; [simpl in L; unfold m in L; lia|]. unfold vectorized. destruct (AL d0 (or_introl eq_refl)) as (q & C). rewrite (create_ok _ _ _ g C).
      destruct (each_ok make (d0 :: l0) (mkGen (g_stream g) (g_pos g + 1)) AL) as (xs & g' & E). rewrite E. simpl. eauto.
    + intros k v Hin NE. destruct (proj2 TI) as [e He]; [right; exists k, v; rewrite Nat2Z.id; auto|discriminate].
  - split.
    + intros LN _. destruct (proj1 TI) as [H|(k & v & Hin & NE)]; eauto; [lia|]. rewrite Nat2Z.id in NE. now rewrite (LN k v Hin) in NE.
    + intros k v Hin NE. now rewrite (TV e eq_refl).
Qed.
(** Generators: a given generator leaves the node's own one alone, and is advanced; without one the own generator is advanced, so that
    the next call takes new numbers; setting a seed starts the seed's numbers from the beginning. *)
Theorem C82_generators : forall (nd : node (A := A)) n inp,
  (forall g r nd' og, inv_compute pinv nd n inp (Some g) = (r, nd', og) -> nd' = nd /\ exists g', og = Some g' /\ (r, g') = run pinv (nd_dist nd) n inp g) /\
  (forall r nd' og, inv_compute pinv nd n inp None = (r, nd', og) -> og = None /\ nd_dist nd' = nd_dist nd /\ (r, nd_rng nd') = run pinv (nd_dist nd) n inp (nd_rng nd)) /\
  (forall stream, inv_compute pinv (inv_set_seed nd stream) n inp None =
     (fst (run pinv (nd_dist nd) n inp (fresh stream)), mkNode (nd_dist nd) (snd (run pinv (nd_dist nd) n inp (fresh stream))), None)).
Proof.
  intros nd n inp. unfold inv_compute. repeat match goal with |- _ /\ _ => split end.
  - intros g r nd' og H. destruct (run pinv (nd_dist nd) n inp g) as [r0 g'] eqn:E. injection H as <- <- <-. eauto.
  - intros r nd' og H. destruct (run pinv (nd_dist nd) n inp (nd_rng nd)) as [r0 g'] eqn:E. injection H as <- <- <-. auto.
  - intros stream. unfold inv_set_seed. cbn [nd_dist nd_rng]. destruct (run pinv (nd_dist nd) n inp (fresh stream)) as [r0 g']. reflexivity.
Qed.
(** The numbers are used in order and none twice: every call moves the generator past the numbers it used. *)
Theorem C82_advances : forall (d : sampler (A := A)) n inp g r g', (1 <= n)%nat -> match inp with Single a => True | Arrays a => NoDup (dkeys a) end -> run pinv d n inp g = (Ok r, g') ->
  g_stream g' = g_stream g /\ g_pos g' = (g_pos g + n + match d with Class _ => if (n =? 1)%nat then 0 else 1 | Fixed _ => 0 end)%nat.
Proof.
  intros [q|make] n inp g r g' Hn ND H.
  - rewrite C82_object in H by auto. injection H as _ <-. cbn [g_stream g_pos]. split; [reflexivity|lia].
  - destruct (Nat.eq_dec n 1) as [-> | N1].
    + destruct inp as [a|a]. 2:{ discriminate. } destruct (C82_class_one make a g) as [X Y]. destruct (Y _ _ H) as (q & C). rewrite (X q C) in H. injection H as _ <-. simpl. split; [reflexivity|lia].
    + destruct inp as [a|a]; [destruct n as [|[|n]]; try lia; discriminate|]. destruct (C82_class make n a g r g' ltac:(lia) ND H) as (xs & _ & _ & -> & _). simpl.
      apply Nat.eqb_neq in N1. rewrite N1. split; [reflexivity|lia].
Qed.
(** The samples follow the density: for a density with distribution function F and an inverse that is accurate to eps, a sample falls
    into (a, b] for the numbers u between F a + eps and F b - eps, and only for those between F a - eps and F b + eps; F b - F a is the
    normalised integral of the density. *)
Theorem C82_density : forall ff F total q eps a b u, distribution ff F total -> inverts F q eps -> 0 <= u <= 1 -> a <= b ->
  (F a + eps < u < F b - eps -> a < q u <= b) /\ (a < q u <= b -> F a - eps <= u <= F b + eps) /\ F b - F a = RInt ff a b / total.
Proof.
  intros ff F total q eps a b u (HT & HP & HI) HQ Hu Hab.
  assert (MON : forall x y, x <= y -> F x <= F y).
  { intros x y Hxy. pose proof (HI x y Hxy) as I. assert (0 <= total * (F y - F x)).
    { apply (is_RInt_ge_0 ff x y); auto. } apply Rmult_le_reg_l with total; auto. lra. }
  specialize (HQ u Hu). apply Rabs_le_between in HQ.
  split; [|split].
  - intros [H1 H2]. split.
    + apply Rnot_le_lt. intros C. specialize (MON _ _ C). lra.
    + apply Rnot_lt_le. intros C. assert (BQ : b <= q u) by lra. specialize (MON _ _ BQ). lra.
  - intros [H1 H2]. pose proof (MON a (q u) ltac:(lra)). pose proof (MON _ _ H2). lra.
  - rewrite (is_RInt_unique _ _ _ _ (HI a b Hab)). field. lra.
Qed.
End P.

(** Sampling an object n times one by one gives the same values as one call for n samples ... *)
Theorem C82_one_by_one : forall (A : Type) pinv q n (inp : nat -> @inputs A) (inp' : @inputs A) g, (2 <= n)%nat ->
  run (A := A) pinv (Fixed q) n inp' g =
  (Ok (Arr (map (fun i => match fst (run (A := A) pinv (Fixed q) 1 (inp i) (mkGen (g_stream g) (g_pos g + i))) with Ok (Num x) => x | _ => 0 end) (seq 0 n))), mkGen (g_stream g) (g_pos g + n)).
Proof.
  intros A pinv q n inp inp' g Hn. rewrite C82_object by lia. replace (n =? 1)%nat with false by (symmetry; apply Nat.eqb_neq; lia). do 3 f_equal.
  rewrite map_map. apply map_ext. intros i. rewrite C82_object by lia. reflexivity.
Qed.
(** Finding: ... but for a class it does not: [np.vectorize] samples the first distribution once more and throws the result away, so
    the first number of the generator is lost and every sample comes from the number of its successor.  Here: two samples of the
    uniform distribution scaled by a parameter, generator numbers 0.1, 0.2, 0.3, ... *)
Definition scaled : dict R -> result pyobj := fun d => match dget "scale"%string d with Some s => Ok (mkObj (Some (fun x => s)) None None) | None => Err TypeError end.
Definition scaled_inv : (R -> R) -> result (R -> R) := fun f => Ok (fun u => f 0 * u).
Theorem C82_extra_draw_refuted : let g := fresh (fun i => INR (S i) / 10) in
  exists xs g1 g2 y1 y2 g3, run scaled_inv (Class scaled) 2 (Arrays [("scale"%string, [1; 2])]) g = (Ok (Arr xs), g1) /\
  run scaled_inv (Class scaled) 1 (Single [("scale"%string, 1)]) g = (Ok (Num y1), g2) /\
  run scaled_inv (Class scaled) 1 (Single [("scale"%string, 2)]) g2 = (Ok (Num y2), g3) /\
  y1 = 1 / 10 /\ y2 = 4 / 10 /\ xs = [2 / 10; 6 / 10].
Proof.
  cbv zeta. do 6 eexists. split; [reflexivity|]. split; [reflexivity|]. split; [reflexivity|]. simpl. split; [lra|]. split; [lra|]. f_equal; [lra|]. f_equal. lra.
Qed.
(** Finding: parameters given along with an object are accepted and have no effect. *)
Theorem C82_object_parameters_refuted : forall (A : Type) pinv q n (inp inp' : @inputs A) g, run pinv (Fixed q) n inp g = run pinv (Fixed q) n inp' g.
Proof. reflexivity. Qed.
(** A case: the class above, accepted and sampled; its uniform density has the distribution function and inverse that C82_density asks for. *)
Example C82_case : class_inverse scaled_inv scaled [("scale"%string, 2)] (fun u => 2 * u) /\
  distribution (fun x => if Rle_dec 0 x then if Rle_dec x 2 then 3 else 0 else 0) (fun x => Rmin 1 (Rmax 0 (x / 2))) 6 /\
  inverts (fun x => Rmin 1 (Rmax 0 (x / 2))) (fun u => 2 * u) 0.
Proof.
  split. { exists (mkObj (Some (fun x => 2)) None None), (fun x => 2). split; [reflexivity|]. split; reflexivity. }
  split.
  - split; [lra|]. split. { intros x. destruct (Rle_dec 0 x), (Rle_dec x 2); lra. }
    assert (CC : forall x y v, x <= y -> (forall t, x < t < y -> (if Rle_dec 0 t then if Rle_dec t 2 then 3 else 0 else 0) = v) ->
              is_RInt (fun t => if Rle_dec 0 t then if Rle_dec t 2 then 3 else 0 else 0) x y (v * (y - x))).
    { intros x y v Hxy Hv. apply (is_RInt_ext (fun _ => v)). { intros t Ht. rewrite Rmin_left, Rmax_right in Ht by lra. symmetry. auto. }
      replace (v * (y - x)) with (@scal _ R_NormedModule (y - x) v) by (unfold scal; simpl; unfold mult; simpl; ring). exact (@is_RInt_const R_NormedModule x y v). }
    assert (LOW : forall x y, x <= y -> y <= 0 -> is_RInt (fun t => if Rle_dec 0 t then if Rle_dec t 2 then 3 else 0 else 0) x y (0 * (y - x))).
    { intros x y Hxy Hy. apply CC; auto. intros t Ht. destruct (Rle_dec 0 t); lra. }
    assert (MID : forall x y, x <= y -> 0 <= x -> y <= 2 -> is_RInt (fun t => if Rle_dec 0 t then if Rle_dec t 2 then 3 else 0 else 0) x y (3 * (y - x))).
    { intros x y Hxy Hx Hy. apply CC; auto. intros t Ht. destruct (Rle_dec 0 t), (Rle_dec t 2); lra. }
    assert (TOP : forall x y, x <= y -> 2 <= x -> is_RInt (fun t => if Rle_dec 0 t then if Rle_dec t 2 then 3 else 0 else 0) x y (0 * (y - x))).
    { intros x y Hxy Hx. apply CC; auto. intros t Ht. destruct (Rle_dec 0 t), (Rle_dec t 2); lra. }
    intros x y Hxy. set (F := fun t => Rmin 1 (Rmax 0 (t / 2))).
    assert (P : forall a b c s t, is_RInt (fun t => if Rle_dec 0 t then if Rle_dec t 2 then 3 else 0 else 0) a b s -> is_RInt (fun t => if Rle_dec 0 t then if Rle_dec t 2 then 3 else 0 else 0) b c t ->
              is_RInt (fun t => if Rle_dec 0 t then if Rle_dec t 2 then 3 else 0 else 0) a c (s + t)).
    { intros a b c s t H1 H2. apply (is_RInt_Chasles _ _ _ _ _ _ H1 H2). }
    assert (E : 6 * (F y - F x) = 0 * (Rmin y (Rmax x 0) - x) + 3 * (Rmin y (Rmax x 2) - Rmin y (Rmax x 0)) + 0 * (y - Rmin y (Rmax x 2))).
    { unfold F, Rmin, Rmax. repeat destruct Rle_dec; lra. }
    unfold F in E. rewrite E. apply P with (Rmin y (Rmax x 2)); [apply P with (Rmin y (Rmax x 0))|].
    + destruct (Rle_dec x 0). { apply LOW; unfold Rmin, Rmax; repeat destruct Rle_dec; lra. }
      replace (Rmin y (Rmax x 0)) with x by (unfold Rmin, Rmax; repeat destruct Rle_dec; lra). replace (0 * (x - x)) with (@zero R_NormedModule) by (unfold zero; simpl; ring). apply is_RInt_point.
    + set (a1 := Rmin y (Rmax x 0)). set (b1 := Rmin y (Rmax x 2)). destruct (Req_dec a1 b1) as [EQ|NE].
      { rewrite EQ. replace (3 * (b1 - b1)) with (@zero R_NormedModule) by (unfold zero; simpl; ring). apply is_RInt_point. }
      unfold a1, b1 in *. apply MID; revert NE; unfold Rmin, Rmax; repeat destruct Rle_dec; intros; lra.
    + set (b1 := Rmin y (Rmax x 2)). destruct (Req_dec b1 y) as [EQ|NE].
      { rewrite EQ. replace (0 * (y - y)) with (@zero R_NormedModule) by (unfold zero; simpl; ring). apply is_RInt_point. }
      unfold b1 in *. apply TOP; revert NE; unfold Rmin, Rmax; repeat destruct Rle_dec; intros; lra.
  - intros u Hu. replace (2 * u / 2) with u by field. rewrite Rmax_right, Rmin_right by lra. rewrite Rminus_diag_eq, Rabs_R0; lra.
Qed.
