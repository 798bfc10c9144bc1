(** Theorems added after mechanical edits of the model survived (seeded/auto_rules.py): names of the nodes of the SN Ia source (C104), the default
    of the host's t0, the pixel rectangles a footprint accepts (C81), the noise of a simulated object (C85). *)
From Coq Require Import Reals Lra String List Bool Arith ZArith Lia.
From Verif Require Import Base BaseFacts RealBase ScipyModel GraphStateModel NodeGraphModel NodeGraphProps NodeParamProps SniaSourceModel SniaSourceRun CosmoModel CosmoProps.
From Verif Require FootprintModel FootprintProps FootprintMore NoisyModel NoisyProps.
Import ListNotations.
Open Scope string_scope.
Open Scope list_scope.

(** ** C104 *)
(** The names under which the parameters of the SN Ia source of [construct_snia_source] appear in a sampled state, in the order in which the
    nodes were made. *)
Theorem C104_node_names : forall A (none k1 k2 k3 k4 k5 k6 k7 k8 k9 k10 k11 k12 k13 : value A) h i fuel h',
  snia_nodes none (mkConst k1 k2 k3 k4 k5 k6 k7 k8 k9 k10 k11 k12 k13) = Ok (h, i) -> start_heap (15 + fuel) h i = Ok h' ->
  map (fun n => nd_str n) h' =
    ["NumpyRandomFunc:uniform_3"; "NumpyRandomFunc:uniform_4"; "NumpyRandomFunc:uniform_6"; "SamplePDF:_rvs_5"; "host";
     "DistModFromRedshift:_distmod_from_redshift_10"; "HostmassX1Func:_rvs_11"; "NumpyRandomFunc:normal_12"; "NumpyRandomFunc:normal_13"; "x0_func";
     "NumpyRandomFunc:uniform_8"; "NumpyRandomFunc:normal_1"; "NumpyRandomFunc:normal_7"; "source"].
Proof.
  intros A none k1 k2 k3 k4 k5 k6 k7 k8 k9 k10 k11 k12 k13 h i fuel h' H S. rewrite snia_nodes_eq in H. injection H as <- <-.
  rewrite snia_names in S. injection S as <-. reflexivity.
Qed.
(** A host galaxy takes each of its parameters from the keyword of that name, else None. *)
Theorem C104_host_parameters : forall A (none : value A) label kw (h : nheap A) es,
  (forall k, source h k (kwarg none kw k) = Some (es k)) ->
  host_make none label kw h = Ok (h ++ [model_node "SNIaHost" label
    [("ra", no_grad (es "ra")); ("dec", no_grad (es "dec")); ("redshift", no_grad (es "redshift")); ("t0", es "t0"); ("distance", no_grad (es "distance"));
     ("hostmass", es "hostmass")]], length h).
Proof.
  intros A none label kw h es S. assert (U : exists u : nheap A, h = h ++ u) by (exists []; now rewrite app_nil_r).
  unfold host_make, physical_make, add_parameter. cbv zeta.
  rewrite (add_old _ h h _ _ _ _ _ (es "ra")); auto. unfold lift at 1.
  rewrite (add_old _ h h _ _ _ _ _ (es "dec")); auto. 2:{ cbn. intros [E|[]]; discriminate E. } unfold lift at 1.
  rewrite (add_old _ h h _ _ _ _ _ (es "redshift")); auto. 2:{ cbn. intros [E|[E|[]]]; discriminate E. } unfold lift at 1.
  rewrite (add_old _ h h _ _ _ _ _ (es "t0")); auto. 2:{ cbn. intros [E|[E|[E|[]]]]; discriminate E. } unfold lift at 1.
  rewrite (add_old _ h h _ _ _ _ _ (es "distance")); auto. 2:{ cbn. intros [E|[E|[E|[E|[]]]]]; discriminate E. } unfold lift at 1.
  cbn [bind fst snd]. rewrite (add_old _ h h _ _ _ _ _ (es "hostmass")); auto. cbn. intros [E|[E|[E|[E|[E|[]]]]]]; discriminate E.
Qed.
Example C104_host_case : exists h, host_make (Atom 0%Z) (Some "host") [("t0", PConst (Atom 5%Z)); ("hostmass", PConst (Atom 9%Z))] [] = Ok (h, 0) /\
  option_map (fun n => dget "t0" (nd_setters n)) (nth_error h 0) = Some (Some (as_constant (Atom 5%Z))) /\
  option_map (fun n => dget "redshift" (nd_setters n)) (nth_error h 0) = Some (Some (no_grad (as_constant (Atom 0%Z)))).
Proof. eexists. split; [vm_compute; reflexivity|]. split; reflexivity. Qed.

(** ** C81 *)
Section F.
Import FootprintModel.
Open Scope R_scope.
Lemma floor_nonpos : forall x, (floor x <= 0)%Z <-> x < 1.
Proof.
  intros x. unfold floor. destruct (base_Int_part x) as [A B]. split; intros H.
  - apply IZR_le in H. simpl in H. lra.
  - assert (IZR (Int_part x) < 1) by lra. apply lt_IZR in H0. lia.
Qed.
Lemma ceil_nonneg : forall x, (0 <= ceil x)%Z <-> -1 < x.
Proof. intros x. assert (H := floor_nonpos (- x)). unfold floor, ceil in *. split; intros Q; [assert (- x < 1) by (apply H; lia); lra|]. assert (Int_part (- x) <= 0)%Z by (apply H; lra). lia. Qed.
(** Which upright pixel rectangles are accepted: those that come nearer than half a pixel to the pixel (0, 0), whose corners are at -1/2 and 1/2. *)
Theorem C81_pixel_rectangle_accepted : forall cx cy w h ps, 0 < ps -> 0 < w -> 0 < h ->
  (cx - w / 2 < 1 / 2 /\ -3 / 2 < cx + w / 2 /\ cy - h / 2 < 1 / 2 /\ -3 / 2 < cy + h / 2 ->
   foot_make (Pix (PixRect cx cy w h 0)) None (Some ps) = Ok (mkFoot (PixRect cx cy w h 0) (tan_pixel ps))) /\
  (~ (cx - w / 2 < 1 / 2 /\ -3 / 2 < cx + w / 2 /\ cy - h / 2 < 1 / 2 /\ -3 / 2 < cy + h / 2) ->
   foot_make (Pix (PixRect cx cy w h 0)) None (Some ps) = Err ValueError).
Proof.
  intros cx cy w h ps Hp Hw Hh. unfold foot_make. replace (Rleb ps 0) with false by (symmetry; apply Rleb_false; lra). cbn [bind bounding_box]. rewrite cos_0, sin_0.
  assert (DX : Rmax (Rabs (w / 2 * 1 - h / 2 * 0)) (Rabs (w / 2 * 1 + h / 2 * 0)) = w / 2).
  { replace (w / 2 * 1 - h / 2 * 0) with (w / 2) by ring. replace (w / 2 * 1 + h / 2 * 0) with (w / 2) by ring. rewrite Rabs_pos_eq by lra. apply Rmax_left. lra. }
  assert (DY : Rmax (Rabs (w / 2 * 0 + h / 2 * 1)) (Rabs (w / 2 * 0 - h / 2 * 1)) = h / 2).
  { replace (w / 2 * 0 + h / 2 * 1) with (h / 2) by ring. replace (w / 2 * 0 - h / 2 * 1) with (- (h / 2)) by ring. rewrite Rabs_Ropp, Rabs_pos_eq by lra. apply Rmax_left. lra. }
  rewrite DX, DY.
  match goal with |- context[if ?b then _ else _] => assert (X : b = true <-> cx - w / 2 < 1 / 2 /\ -3 / 2 < cx + w / 2 /\ cy - h / 2 < 1 / 2 /\ -3 / 2 < cy + h / 2) end.
  { rewrite !andb_true_iff, !Z.leb_le, !floor_nonpos, !ceil_nonneg. split; intros H.
    - destruct H as [[[H1 H2] H3] H4]. repeat match goal with |- _ /\ _ => split end; lra.
    - destruct H as (H1 & H2 & H3 & H4). repeat match goal with |- _ /\ _ => split end; lra. }
  destruct (_ && _)%bool; split; intros H; auto; exfalso; [now apply H, X|]. apply X in H. discriminate H.
Qed.
(** A one-pixel rectangle at the reference pixel is accepted, one two pixels to the right of it is not. *)
Example C81_accepted_case : (exists f, foot_make (Pix (PixRect 0 0 1 1 0)) None (Some 1) = Ok f) /\ foot_make (Pix (PixRect 2 0 1 1 0)) None (Some 1) = Err ValueError.
Proof.
  split.
  - eexists. apply C81_pixel_rectangle_accepted; lra.
  - apply C81_pixel_rectangle_accepted; lra.
Qed.
End F.

(** ** C85 *)
Section N.
Import NoisyModel NoisyProps.
Open Scope R_scope.
(** The observed flux of a simulated object is the noise-free flux plus its own error times its own number, taken from the simulation's
    generator in order. *)
Theorem C85_survey_noise : forall os m g ts fs st errors gen0 k perfect noisy,
  fst (simulate_object os m g ts fs st errors (mkWorld (Some gen0) k)) = Ok (perfect, noisy) ->
  exists er zs, errors perfect = Ok er /\ zs = fst (take gen0 (length perfect)) /\
    (length er = length perfect -> length zs = length perfect -> length noisy = length perfect) /\
    forall i p e z, nth_error perfect i = Some p -> nth_error er i = Some e -> nth_error zs i = Some z -> nth_error noisy i = Some (p + e * z).
Proof.
  intros os m g ts fs st errors gen0 k perfect noisy H. unfold simulate_object in H. cbn [w_rng w_made] in H.
  destruct (revaluate_bandfluxes _ _ _ _ _ _ _) as [[l|e] w1]; [|discriminate].
  unfold andthen, lift, draw in H. cbn [w_rng w_made] in H. destruct (errors (hd [] l)) as [er|e] eqn:EE; [|discriminate].
  destruct (take gen0 (length (hd [] l))) as [zs g'] eqn:ET. cbn [ret fst] in H. injection H as <- <-.
  exists er, zs. rewrite ET. split; auto. split; auto. split.
  - intros H1 H2. rewrite map_length, !combine_length. lia.
  - intros i p e z Hp He Hz. rewrite nth_error_map.
    assert (X : nth_error (combine (combine (hd [] l) er) zs) i = Some ((p, e), z)).
    { clear - Hp He Hz. revert er zs i Hp He Hz. induction (hd [] l) as [|a t IH]; intros er zs [|i] Hp He Hz; try discriminate;
        destruct er as [|b er]; try discriminate; destruct zs as [|c zs]; try discriminate; cbn in *.
      - congruence.
      - eauto. }
    rewrite X. reflexivity.
Qed.
End N.
Print Assumptions C104_node_names.
Print Assumptions C104_host_parameters.
Print Assumptions C81_pixel_rectangle_accepted.
Print Assumptions C85_survey_noise.
