(** Passband objects: what the single calls report. *)
From Coq Require Import Reals String List Bool Arith Lia Lra ZArith.
From Verif Require Import Base BaseFacts RealBase PassbandModel PassbandProofs PassbandProps PassbandGroupProps PassbandFileProofs
  PassbandShareModel PassbandShareProofs PassbandShareProps.
Import ListNotations.
Open Scope nat_scope.
Open Scope list_scope.

(** Making a passband: exactly the passband the constructor builds is there afterwards, after the older ones, or its exception is
    raised and nothing has changed. *)
Theorem C121_band_made : forall w t s f d q u,
  match pb_make t s f d q u with
  | Ok p => snd (step w (NewBand t s f d q u)) = None /\ objs (after w (NewBand t s f d q u)) = objs w ++ [p] /\ grps (after w (NewBand t s f d q u)) = grps w
  | Err e => snd (step w (NewBand t s f d q u)) = Some e /\ after w (NewBand t s f d q u) = w
  end.
Proof. intros. unfold after, step. destruct (pb_make t s f d q u); cbn; auto. Qed.
(** Processing one passband on its own that fails reports the failure and changes nothing; one that succeeds reports none. *)
Theorem C121_band_reports : forall w a d q p, nth_error (objs w) a = Some p ->
  match pb_process p d q with
  | Ok p' => snd (step w (ProcessBand a d q)) = None
  | Err e => step w (ProcessBand a d q) = (w, Some e)
  end.
Proof. intros w a d q p H. unfold step. rewrite H. destruct (pb_process p d q); reflexivity. Qed.
(** A call with an object that does not exist raises and changes nothing. *)
Definition names_nothing (w : world) (o : op) : Prop :=
  match o with
  | NewBand _ _ _ _ _ _ => False
  | NewGroup l _ => exists a, In a l /\ length (objs w) <= a
  | AddBand i a => length (grps w) <= i \/ length (objs w) <= a
  | ProcessGroup i _ _ => length (grps w) <= i
  | ProcessBand a _ _ => length (objs w) <= a
  end.
Theorem C121_unbound : forall w o, names_nothing w o -> step w o = (w, Some NameError).
Proof.
  intros w [t s f d q u|l fs|i a|i d q|a d q] H; cbn [names_nothing] in H; unfold step.
  - easy.
  - destruct H as (a & I & L). destruct l as [|x l]; [easy|]. destruct (forallb _ (x :: l)) eqn:E; [|reflexivity].
    rewrite forallb_forall in E. apply E in I. apply Nat.ltb_lt in I. lia.
  - destruct H as [H|H]; apply nth_error_None in H; rewrite H; [reflexivity|]. destruct (nth_error (grps w) i); reflexivity.
  - apply nth_error_None in H. now rewrite H.
  - apply nth_error_None in H. now rewrite H.
Qed.
Example C121_unbound_case : step (mkWorld [] []) (ProcessGroup 0 None None) = (mkWorld [] [], Some NameError).
Proof. apply C121_unbound. cbn. lia. Qed.
