(** Band fluxes of several samples when noise is drawn while evaluating. *)
From Coq Require Import Reals String List Bool Arith ZArith Lia Lra.
From Verif Require Import Base BaseFacts RealBase PassbandModel PassbandProofs PassbandProps SedModel ScipyModel NoisyModel NoisyProps.
Import ListNotations.
Open Scope R_scope.

Section Samples.
Variable os : nat -> nat -> R.
(** One sample after the other, each with the generators its predecessor left. *)
Inductive in_turn (m : rphys) (g : pgroup) (ts : list R) (fs : list string) : list gst -> world -> list (list R) -> world -> Prop :=
| it_none : forall w, in_turn m g ts fs [] w [] w
| it_next : forall st sts w b w1 bs w2, rband_eval os m (Some g) ts fs st w = (Ok b, w1) -> in_turn m g ts fs sts w1 bs w2 ->
    in_turn m g ts fs (st :: sts) w (b :: bs) w2.
Lemma in_turn_fold : forall m g ts fs sts acc w l w',
  fold_act (fun acc st => andthen (rband_eval os m (Some g) ts fs st) (fun b => ret (acc ++ [b]))) acc sts w = (Ok l, w') <->
  exists bs, in_turn m g ts fs sts w bs w' /\ l = acc ++ bs.
Proof.
  intros m g ts fs. induction sts as [|st sts IH]; intros acc w l w'; cbn [fold_act].
  - unfold ret. split.
    + intros H. injection H as <- <-. exists []. rewrite app_nil_r. split; [constructor|reflexivity].
    + intros (bs & T & ->). inversion T; subst. now rewrite app_nil_r.
  - unfold andthen, ret. destruct (rband_eval os m (Some g) ts fs st w) as [[b|e] w1] eqn:E.
    + split.
      * intros H. apply IH in H as (bs & T & ->). exists (b :: bs). rewrite <- app_assoc. split; [econstructor; eauto|reflexivity].
      * intros (bs & T & ->). inversion T as [|? ? ? b0 w0 bs0 ? E0 T0]; subst. rewrite E in E0. injection E0 as <- <-.
        apply IH. exists bs0. rewrite <- app_assoc. auto.
    + split; [intros H; apply (f_equal fst) in H; cbn in H; congruence|]. intros (bs & T & _). inversion T as [|? ? ? b0 w0 bs0 ? E0 T0]; subst. congruence.
Qed.
(** Row k of the result belongs to sample k, evaluated after samples 0..k-1. *)
Theorem C85_bands_in_turn : forall m g ts fs sts w l w', revaluate_bandfluxes os m g ts fs sts w = (Ok l, w') <->
  length fs = length ts /\ in_turn m g ts fs sts w l w'.
Proof.
  intros. unfold revaluate_bandfluxes. destruct (length fs =? length ts)%nat eqn:L; cbn [negb].
  - apply Nat.eqb_eq in L. rewrite in_turn_fold. split.
    + intros (bs & T & ->). auto.
    + intros [_ T]. eauto.
  - apply Nat.eqb_neq in L. split; [intros H; apply (f_equal fst) in H; cbn in H; congruence|intros [? _]; congruence].
Qed.
(** With the generator of the caller, as many rows as samples. *)
Theorem C85_bands_rows : forall m g ts fs sts w l w', revaluate_bandfluxes os m g ts fs sts w = (Ok l, w') -> length l = length sts.
Proof. intros m g ts fs sts w l w' H. apply C85_bands_in_turn in H as [_ T]. induction T; cbn; auto. Qed.
End Samples.
(** A case: two samples without a generator; each takes the first number of a generator of its own. *)
Example C85_bands_in_turn_case : forall os g, exists w',
  revaluate_bandfluxes os noisy_star g [0] ["r"%string]
    [[("m"%string, [("white_noise_sigma"%string, PNum 1)])]; [("m"%string, [("white_noise_sigma"%string, PNum 3)])]] (mkWorld None 0) =
  (Ok [[10 + 1 * os 0%nat 0%nat]; [10 + 3 * os 1%nat 0%nat]], w').
Proof.
  intros os g. assert (N : Rltb 1 0 = false) by (apply Rltb_false; lra). assert (N3 : Rltb 3 0 = false) by (apply Rltb_false; lra).
  unfold revaluate_bandfluxes, noisy_star. simpl. unfold andthen, rband_single, andthen, lift. simpl. unfold rbands. simpl. unfold andthen, white_band, num_param. simpl. rewrite N.
  unfold andthen, draw, ret, noisy_row. simpl. rewrite N3. simpl. eexists. reflexivity.
Qed.
