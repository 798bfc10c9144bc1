(** Generators move on: what a call leaves behind for the next one. *)
From Coq Require Import Reals String List Bool Arith ZArith Lia Lra.
From Verif Require Import Base BaseFacts RealBase GraphStateModel GraphStateProofs GraphStateProps NodeGraphModel NpRandomModel NpRandomProps SamplerModel RadecModel RadecTrig RadecProps RadecTable.
Import ListNotations.
Open Scope string_scope.
Open Scope list_scope.
Open Scope nat_scope.

Section Np.
Context {A : Type} (zero : A) (draw : gen (A := A) -> call (A := A) -> list nat -> dict A -> A).
(** A call that succeeds is recorded, after the earlier ones, in the generator it used (the given one, or the node's own) and
    in no other; so the next call sees a generator that has moved on.  A call that fails leaves both as they were. *)
Theorem C77_advances : forall nd n a rng r nd' rng', np_compute zero draw nd n a rng = (r, nd', rng') ->
  match r with
  | Err e => e = ValueError /\ nd' = nd /\ rng' = rng
  | Ok _ => exists c, ca_name c = nr_name nd /\ (ca_size c = None <-> n = 1 /\ nr_dims nd = []) /\
      (forall sz, ca_size c = Some sz -> sz = n :: nr_dims nd) /\
      match rng with
      | Some g => ca_args c = a /\ nd' = nd /\ exists g', rng' = Some g' /\ ge_seed g' = ge_seed g /\ ge_calls g' = ge_calls g ++ [c]
      | None => rng' = None /\ nr_name nd' = nr_name nd /\ nr_dims nd' = nr_dims nd /\ nr_fixed nd' = nr_fixed nd /\
                ge_seed (nr_own nd') = ge_seed (nr_own nd) /\ ge_calls (nr_own nd') = ge_calls (nr_own nd) ++ [c]
      end
  end.
Proof.
  intros nd n a rng r nd' rng' H. unfold np_compute in H.
  set (size := match n :: nr_dims nd with [1] => None | _ => Some (n :: nr_dims nd) end) in *.
  assert (S1 : size = None <-> n = 1 /\ nr_dims nd = []).
  { unfold size. destruct n as [|[|n]]; destruct (nr_dims nd) as [|d l]; split; intros E; try discriminate; auto; destruct E as [E1 E2]; try discriminate; auto. }
  assert (S2 : forall sz, size = Some sz -> sz = n :: nr_dims nd).
  { unfold size. intros sz E. destruct n as [|[|n]]; destruct (nr_dims nd) as [|d l]; try discriminate; injection E as <-; reflexivity. }
  clearbody size. destruct rng as [g0|].
  - unfold np_call in H. destruct (if forallb _ a then _ else None) as [sh|] eqn:E.
    + injection H as <- <- <-. exists (mkCall (nr_name nd) a size). cbn. repeat split; auto; try (now apply S1). eexists. split; [reflexivity|]. cbn. auto.
    + injection H as <- <- <-. auto.
  - unfold np_call in H. destruct (if forallb _ (with_fixed (nr_fixed nd) a) then _ else None) as [sh|] eqn:E.
    + injection H as <- <- <-. eexists (mkCall (nr_name nd) _ size). cbn. repeat split; auto; try (now apply S1).
    + injection H as <- <- <-. destruct nd; auto.
Qed.
End Np.

Section Positions.
Context {G : Type}.
Variable unit_draws : nat -> G -> list R * G.
Variable int_draws : nat -> nat -> G -> list nat * G.
(** Positions drawn from a table: the generator used moves on past the rows (none in order) and, when there is a radius, past
    two numbers per sample; a generator given by the caller is the one used, and the node's own then stays where it is. *)
Theorem C99_generator : forall s st rng s' rng' st' vs, RadecModel.os_compute unit_draws int_draws s st rng = (s', rng', st', Ok vs) ->
  exists g, match rng with Some _ => rng' = Some g /\ on_own s' = on_own s | None => rng' = None /\ on_own s' = g end /\
    let g1 := after_rows int_draws (ts_in_order (on_tab s)) (ts_num (on_tab s)) (gs_n st) (in_use s rng) in
    (0 < on_radius s -> g = snd (unit_draws (gs_n st) (snd (unit_draws (gs_n st) g1))))%R /\ (~ 0 < on_radius s -> g = g1)%R.
Proof.
  intros s st rng s' rng' st' vs H. unfold RadecModel.os_compute in H. fold (in_use s rng) in H. set (n := gs_n st) in *.
  assert (E0 : exists dr, (if ts_in_order (on_tab s) then ([], in_use s rng) else int_draws (ts_num (on_tab s)) n (in_use s rng)) =
    (dr, after_rows int_draws (ts_in_order (on_tab s)) (ts_num (on_tab s)) n (in_use s rng))).
  { unfold after_rows. destruct (ts_in_order (on_tab s)); [eauto|]. destruct (int_draws _ n _); eauto. }
  destruct E0 as (dr & E0). rewrite E0 in H. cbn zeta. set (g1 := after_rows _ _ _ _ _) in *. clearbody g1.
  destruct (ts_compute (on_tab s) n dr) as [t' [ws|e]]; [|destruct rng; cbn in H; apply (f_equal snd) in H; discriminate H].
  destruct (save_results_gs st (on_str s) os_outs (Arr ws)) as [st1 [e|]]; [destruct rng; apply (f_equal snd) in H; discriminate H|].
  destruct (Rltb 0 (on_radius s)) eqn:ER.
  - apply Rltb_true in ER. unfold rng_uniform in H. destruct (unit_draws n g1) as [us g2] eqn:E1. destruct (unit_draws n g2) as [us2 g3] eqn:E2. cbn [snd]. rewrite E2.
    exists g3. cbn [snd]. assert (X : forall b, (match rng with Some _ => (mkO (on_str s) (on_radius s) t' (on_own s), Some g3) | None => (mkO (on_str s) (on_radius s) t' g3, None) end) = b ->
      match rng with Some _ => snd b = Some g3 /\ on_own (fst b) = on_own s | None => snd b = None /\ on_own (fst b) = g3 end) by (intros b <-; destruct rng; cbn; auto).
    cbn [on_str on_radius on_tab on_own] in H.
    destruct (match rng with Some _ => _ | None => _ end) as [s2 r2] eqn:EB. specialize (X _ eq_refl). cbn [fst snd] in X.
    assert (Q : s' = s2 /\ rng' = r2).
    { destruct ws as [|x [|y [|z [|]]]]; try (apply (f_equal snd) in H; discriminate H).
      destruct (save_results_gs st1 _ _ _) as [st2 [e|]]; [apply (f_equal snd) in H; discriminate H|]. now injection H as <- <- _ _. }
    destruct Q as [-> ->]. split; [exact X|]. split; auto. intros N; contradiction.
  - apply Rltb_false in ER. exists g1. destruct rng; injection H as <- <- _ _; cbn [on_own]; (split; [auto|]); split; auto; intros; lra.
Qed.
End Positions.
