(** Further theorems found missing by mutants: C24, which tables a sampler is made of. *)
From Coq Require Import String List Bool Arith ZArith Lia.
From Verif Require Import Base BaseFacts SamplerModel SamplerProps.
Import ListNotations.
Open Scope list_scope.
Open Scope nat_scope.

(** A table is accepted exactly if it has a column and all columns have the same number of rows, at least one; anything else is a
    ValueError. *)
Theorem C24_accepted_tables : forall A (data : dict (list A)) io,
  ((exists s, ts_make data io = Ok s) <-> data <> [] /\ exists rows, 1 <= rows /\ forall name col, In (name, col) data -> length col = rows) /\
  ((forall s, ts_make data io <> Ok s) -> ts_make data io = Err ValueError).
Proof.
  intros A data io. unfold ts_make. split.
  - destruct data as [|[k c] d].
    + cbn. split; [intros [s H]; discriminate|intros [H _]; congruence].
    + cbn [table_len]. destruct (forallb (fun c0 => length (snd c0) =? length c) ((k, c) :: d)) eqn:E; cbn [negb].
      * rewrite forallb_forall in E. destruct (Nat.eqb_spec (length c) 0) as [Z|Z].
        -- split; [intros [s H]; discriminate|]. intros (_ & r & R & H). specialize (H k c (or_introl eq_refl)). lia.
        -- split; [|eauto]. intros _. split; [discriminate|]. exists (length c). split; [lia|]. intros name col HI. apply E in HI. now apply Nat.eqb_eq.
      * split; [intros [s H]; discriminate|]. intros (_ & r & R & H). exfalso.
        assert (X : forallb (fun c0 : string * list A => length (snd c0) =? length c) ((k, c) :: d) = true).
        { apply forallb_forall. intros [a b] HI. apply Nat.eqb_eq. cbn [snd]. rewrite (H a b HI). symmetry. apply (H k c). now left. }
        congruence.
  - intros H. destruct (negb _); auto. destruct (table_len data =? 0); auto. exfalso. eapply H; eauto.
Qed.
Print Assumptions C24_accepted_tables.
