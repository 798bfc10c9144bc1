(** Theorems added after seeded bugs survived: scipy samplers (C82), supernova rates (C83). *)
From Coq Require Import Reals String List Bool Arith ZArith Lia Lra.
From Verif Require Import Base BaseFacts RealBase GraphStateModel ScipyModel SniaModel.
Import ListNotations.
Open Scope R_scope.

(** ** C82: a class whose object for the sampled parameters has no density is refused, and no number is taken from the generator. *)
Theorem C82_class_without_density : forall A pinv (make : dict A -> result pyobj) o a g given, make a = Ok o -> o_pdf o = None -> o_logpdf o = None ->
  inv_compute pinv (mkNode (Class make) g) 1 (Single a) given = (Err ValueError, mkNode (Class make) g, given).
Proof.
  intros A pinv make o a g given H P L. unfold inv_compute. cbn [nd_dist nd_rng].
  assert (E : forall g, run pinv (Class make) 1 (Single a) g = (Err ValueError, g)).
  { intros g0. unfold run, create_and_sample. rewrite H. cbn [bind]. unfold inverse, density. rewrite P, L. reflexivity. }
  destruct given as [g0|]; now rewrite E.
Qed.
(** ** C83: the rate per volume is 2.27e-5 today and grows as the 1.7th power of 1 + z. *)
Theorem C83_rate : forall z, -1 < z -> volumetric_rate 0 = 227 / 10 ^ 7 /\ (volumetric_rate z / volumetric_rate 0) ^ 10 = (1 + z) ^ 17 /\ 0 < volumetric_rate z.
Proof.
  intros z Hz. assert (P0 : Rpower (1 + 0) (17 / 10) = 1) by (replace (1 + 0) with 1 by ring; unfold Rpower; rewrite ln_1, Rmult_0_r; apply exp_0).
  assert (E0 : volumetric_rate 0 = 227 / 10 ^ 7) by (unfold volumetric_rate; rewrite P0; lra). split; [exact E0|]. split.
  - rewrite E0. unfold volumetric_rate. replace (227 / 10000000 * Rpower (1 + z) (17 / 10) / (227 / 10 ^ 7)) with (Rpower (1 + z) (17 / 10)) by (field; lra).
    rewrite <- Rpower_pow by (unfold Rpower; apply exp_pos). rewrite Rpower_mult. rewrite <- (Rpower_pow 17) by lra. f_equal. simpl INR. lra.
  - unfold volumetric_rate. apply Rmult_lt_0_compat; [lra|]. unfold Rpower. apply exp_pos.
Qed.
Example C82_class_without_density_case : forall pinv, inv_compute pinv (mkNode (Class (fun _ : dict R => Ok (mkObj None None None))) (fresh (fun _ => 1 / 2))) 1 (Single [("loc"%string, 0)]) None =
  (Err ValueError, mkNode (Class (fun _ => Ok (mkObj None None None))) (fresh (fun _ => 1 / 2)), None).
Proof. intros. apply (C82_class_without_density R pinv _ (mkObj None None None)); reflexivity. Qed.
