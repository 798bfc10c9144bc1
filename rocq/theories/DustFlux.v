(** Property C97, continued: extinction effects on a source. *)
From Coq Require Import Reals String List Bool Arith ZArith Lia Lra.
From Verif Require Import Base BaseFacts RealBase SedModel SedProps SedPipeline.
Import ListNotations.
Open Scope R_scope.

(** The dust of the host galaxy (rest frame, law [k1]) and of the Milky Way (observer frame, law [k2]) on one source: the host's law acts at the emitted wavelength, the
    Milky Way's at the observed one; but both with the one parameter "ebv" of the source. *)
Theorem C97_host_and_milky_way : forall s0 k1 k2 v1 v2 ts ws (st : gst) kw (ps : params) z t0 f ebv,
  sd_rest s0 = [] -> sd_obs s0 = [] -> sd_extrap s0 = None ->
  dget (sd_node s0) st = Some ps -> in_force s0 ps z t0 -> -1 < z -> computes s0 st kw f -> ws <> [] ->
  (forall lo hi, sd_min s0 st = Some lo -> sd_max s0 st = Some hi -> lo <= hi) ->
  num_param "ebv" ps = Some ebv ->
  evaluate_sed (fold_left add_effect [extinction true k1 v1; extinction false k2 v2] (PSed s0)) ts ws [st] kw =
  Ok (SOne (mat ts ws (fun t w => (1 + z) * (extended s0 st f (t0 + (t - t0) / (1 + z)) (w / (1 + z)) * k1 (w / (1 + z)) ebv) * k2 w ebv))).
Proof.
  intros s0 k1 k2 v1 v2 ts ws st kw ps z t0 f ebv HR HO HX HP HF Hz HC HW HM HE.
  rewrite (C42_pipeline s0 _ ts ws st kw ps z t0 f (fun e t w x => x * (if ef_rest e then k1 w ebv else k2 w ebv))); auto.
  - intros e He. rewrite HX in He. discriminate.
  - intros e [<-|[<-|[]]]; cbn [ef_rest extinction]; now apply C68_extinction_acts.
Qed.
(** The setter of the second effect is dropped when the effects are added: the Milky Way's own E(B-V) never enters. *)
Theorem C97_own_ebv_refuted : forall s0 k1 k2 v1 v2, dget "ebv" (sd_setters s0) = None ->
  dget "ebv" (sd_setters (sd_add_effect (sd_add_effect s0 (extinction true k1 v1)) (extinction false k2 v2))) = Some v1.
Proof. intros s0 k1 k2 v1 v2 H. rewrite !C42_effect_parameters, H. reflexivity. Qed.
(** Concrete: a source of brightness 8, host dust that divides the flux by 1 + E(B-V) and Milky Way dust with the same law; E(B-V) 1 and 3 are asked for: the result is 2, not 1. *)
Example C97_own_ebv_case : exists s, s = sd_add_effect (sd_add_effect (mkSed "m" [] false (fun _ => None) (fun _ => None) None (fun ts ws _ _ => Ok (map (fun _ => map (fun _ => 8) ws) ts)) [] [])
    (extinction true (fun _ e => 1 / (1 + e)) (PNum 1))) (extinction false (fun _ e => 1 / (1 + e)) (PNum 3)) /\
  evaluate_sed (PSed s) [0] [1000] [[("m"%string, sd_setters s)]] [] = Ok (SOne [[2]]).
Proof.
  eexists. split; [reflexivity|]. unfold evaluate_sed, eval_single, sed_single. cbn. rewrite (proj2 (Rleb_true 1000 1000)) by lra. cbn. do 4 f_equal. field.
Qed.
Print Assumptions C97_host_and_milky_way.
