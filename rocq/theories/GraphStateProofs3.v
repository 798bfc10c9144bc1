(** Lemmas about [extract_parameters], equality, membership and transposition. *)
From Coq Require Import String Ascii List Bool Arith ZArith QArith Qabs Lia Permutation.
From Verif Require Import Base BaseFacts GraphStateModel GraphStateProofs GraphStateProofs2.
Import ListNotations.
Open Scope string_scope.
Open Scope list_scope.
Open Scope nat_scope.

Section P.
Context {A : Type}.
Notation gs := (gs A).
Notation value := (value A).
Hint Resolve wf_wk : core.

Lemma split_fold : forall (s : gs) params acc single r0, wk s ->
  fold_res (extract_split s) acc params = Ok (single, r0) ->
  (forall k, In k params -> has_dot k = true ->
     exists node p v, has_dot node = false /\ has_dot p = false /\ k = full_name node p /\
                      look s node p = Some v) /\
  (forall p, In p single <-> In p (fst acc) \/ (In p params /\ has_dot p = false)) /\
  (NoDup (dkeys (snd acc)) -> NoDup (dkeys r0)) /\
  (forall k, dget k r0 =
     if smem k params && has_dot k then
       match split_dot k with [node; p] => look s node p | _ => None end
     else dget k (snd acc)).
Proof.
  intros s. induction params as [|cur params IH]; simpl; intros acc single r0 W H.
  - inversion H; subst. simpl. split; [tauto|]. split; [intuition|]. split; auto.
  - destruct (extract_split s acc cur) as [acc'|] eqn:E; [|discriminate].
    destruct (IH _ _ _ W H) as [I1 [I2 [I3 I4]]]. unfold extract_split in E.
    destruct (has_dot cur) eqn:ED.
    + destruct (split_dot cur) as [|node [|p [|]]] eqn:ES; try discriminate.
      destruct (dget node (gs_states s)) as [d|] eqn:EN; [|discriminate].
      destruct (dget p d) as [v|] eqn:EP; [|discriminate]. inversion E; subst acc'. simpl in *.
      assert (L : look s node p = Some v) by (unfold look; now rewrite EN).
      apply split_dot_two in ES. destruct ES as [ES [D1 D2]].
      split; [|split; [|split]].
      * intros k [<-|Hk] Hd; auto. exists node, p, v. auto.
      * intros q. rewrite I2. split; [intuition|]. intros [|[[<-|] ?]]; auto. congruence.
      * intros HN. apply I3. now apply NoDup_dset.
      * intros k. rewrite I4. destruct (smem k params) eqn:EM; simpl.
        -- rewrite orb_true_r. simpl. destruct (has_dot k) eqn:EK; auto.
           rewrite dget_dset. destruct (String.eqb k cur) eqn:EC; auto.
           apply String.eqb_eq in EC; subst. congruence.
        -- rewrite orb_false_r. rewrite dget_dset. destruct (String.eqb k cur) eqn:EC; auto.
           apply String.eqb_eq in EC; subst k. rewrite ED. simpl.
           rewrite ES. rewrite split_dot_join, split_dot_nodot by auto. auto.
    + inversion E; subst acc'. simpl in *. split; [|split; [|split]].
      * intros k [<-|Hk] Hd; [congruence|auto].
      * intros q. rewrite I2, In_sadd. split; [intuition; subst; auto|]. intros [|[[<-|] ?]]; auto.
      * auto.
      * intros k. rewrite I4. destruct (String.eqb k cur) eqn:EC; simpl; auto.
        apply String.eqb_eq in EC; subst k. rewrite ED, !andb_false_r. auto.
Qed.

Lemma split_fold_total : forall (s : gs) params acc, wk s ->
  (forall k, In k params -> has_dot k = true ->
     exists node p v, has_dot node = false /\ has_dot p = false /\ k = full_name node p /\
                      look s node p = Some v) ->
  exists r, fold_res (extract_split s) acc params = Ok r.
Proof.
  intros s. induction params as [|cur params IH]; simpl; intros acc W H; eauto.
  assert (E : exists acc', extract_split s acc cur = Ok acc').
  { unfold extract_split. destruct (has_dot cur) eqn:ED; eauto.
    destruct (H cur (or_introl eq_refl) ED) as [node [p [v [D1 [D2 [-> L]]]]]].
    rewrite split_full_name by auto. unfold look in L. destruct (dget node (gs_states s)); [|discriminate].
    rewrite L. eauto. }
  destruct E as [acc' E]. rewrite E. apply IH; auto.
Qed.

(** A node holds the parameter. *)
Definition holds (s : gs) (node p : string) : Prop := look s node p <> None.

Lemma holders_look : forall (s : gs) p e, wk s ->
  (In e (holders (entries (gs_states s)) p) <->
   snd (fst e) = p /\ look s (fst (fst e)) p = Some (snd e)).
Proof.
  intros s p [[node q] v] W. unfold holders. rewrite filter_In, String.eqb_eq. simpl.
  rewrite <- look_In by auto. split; intros [H1 H2]; subst; auto.
Qed.

Lemma at_node_holders : forall (s : gs) p node, wk s ->
  at_node (holders (entries (gs_states s)) p) node = look s node p.
Proof.
  intros s p node W. unfold at_node.
  destruct (find _ _) as [[[a b] u]|] eqn:E.
  - apply find_some in E. destruct E as [E1 E2]. simpl in E2. apply String.eqb_eq in E2. subst a.
    apply holders_look in E1; auto. simpl in *. destruct E1. congruence.
  - destruct (look s node p) eqn:EL; auto. exfalso.
    assert (HI : In (node, p, v) (holders (entries (gs_states s)) p)).
    { apply holders_look; auto. }
    apply (find_none _ _ E) in HI. simpl in HI. rewrite eqb_refl in HI. discriminate.
Qed.

Lemma NoDup_holders : forall (s : gs) p, wk s ->
  NoDup (map (fun e => fst (fst e)) (holders (entries (gs_states s)) p)).
Proof.
  intros s p W. assert (N := NoDup_entries_keys _ W).
  assert (G : forall (l : list (string * string * value)), NoDup (map fst l) ->
     NoDup (map (fun e => fst (fst e)) (holders l p))).
  { induction l as [|[[a b] u] l IH]; simpl; intros ND; [constructor|].
    inversion ND; subst. unfold holders in *. simpl. destruct (String.eqb p b) eqn:E; auto.
    apply String.eqb_eq in E; subst b. simpl. constructor; auto.
    intros HI. apply in_map_iff in HI. destruct HI as [[[a' b'] u'] [E1 HI]]. simpl in E1; subst a'.
    apply filter_In in HI. simpl in HI. destruct HI as [HI E]. apply String.eqb_eq in E; subst b'.
    apply H1. change (a, p) with (fst (a, p, u')). now apply in_map. }
  auto.
Qed.

Lemma holders_one : forall (s : gs) p, wk s -> forall v,
  ((exists e, holders (entries (gs_states s)) p = [e] /\ snd e = v) <->
   exists node, look s node p = Some v /\ forall node', holds s node' p -> node' = node).
Proof.
  intros s p W v. split.
  - intros [[[node q] u] [E Ev]]. simpl in Ev; subst u. exists node.
    assert (HI : In (node, q, v) (holders (entries (gs_states s)) p)) by (rewrite E; simpl; auto).
    apply holders_look in HI; auto. simpl in HI. destruct HI as [-> HI]. split; auto.
    intros node' H'. unfold holds in H'. destruct (look s node' p) eqn:EL; [|congruence].
    assert (HI' : In (node', p, v0) (holders (entries (gs_states s)) p)) by (apply holders_look; auto).
    rewrite E in HI'. simpl in HI'. destruct HI' as [HI'|[]]. congruence.
  - intros [node [HL HU]].
    assert (HI : In (node, p, v) (holders (entries (gs_states s)) p)) by (apply holders_look; auto).
    assert (N := NoDup_holders s p W).
    destruct (holders (entries (gs_states s)) p) as [|e1 [|e2 l]] eqn:E.
    + destruct HI.
    + simpl in HI. destruct HI as [->|[]]. eauto.
    + exfalso.
      assert (H1 : In e1 (holders (entries (gs_states s)) p)) by (rewrite E; simpl; auto).
      assert (H2 : In e2 (holders (entries (gs_states s)) p)) by (rewrite E; simpl; auto).
      apply holders_look in H1, H2; auto. destruct H1 as [_ H1], H2 as [_ H2].
      simpl in N. inversion N as [|? ? NI _]; subst. apply NI. left.
      rewrite (HU (fst (fst e1))) by (unfold holds; congruence).
      rewrite (HU (fst (fst e2))) by (unfold holds; congruence). auto.
Qed.

Lemma holders_two : forall (s : gs) p, wk s ->
  (2 <=? length (holders (entries (gs_states s)) p) = true <->
   exists n1 n2, n1 <> n2 /\ holds s n1 p /\ holds s n2 p).
Proof.
  intros s p W. assert (N := NoDup_holders s p W). split.
  - destruct (holders (entries (gs_states s)) p) as [|e1 [|e2 l]] eqn:E; try discriminate. intros _.
    assert (H1 : In e1 (holders (entries (gs_states s)) p)) by (rewrite E; simpl; auto).
    assert (H2 : In e2 (holders (entries (gs_states s)) p)) by (rewrite E; simpl; auto).
    apply holders_look in H1, H2; auto. destruct H1 as [_ H1], H2 as [_ H2].
    exists (fst (fst e1)), (fst (fst e2)). unfold holds. split; [|split; congruence].
    simpl in N. inversion N as [|? ? NI _]; subst. intros EE. apply NI. rewrite EE. simpl; auto.
  - intros [n1 [n2 [HN [H1 H2]]]]. unfold holds in *.
    destruct (look s n1 p) as [v1|] eqn:E1; [|congruence].
    destruct (look s n2 p) as [v2|] eqn:E2; [|congruence].
    assert (I1 : In (n1, p, v1) (holders (entries (gs_states s)) p)) by (apply holders_look; auto).
    assert (I2 : In (n2, p, v2) (holders (entries (gs_states s)) p)) by (apply holders_look; auto).
    destruct (holders (entries (gs_states s)) p) as [|e1 [|e2 l]]; simpl in *; auto.
    destruct I1 as [|[]], I2 as [|[]]. congruence.
Qed.

(** What a result entry of [extract_parameters] must be. *)
Definition extracted (s : gs) (params : list string) (k : string) (v : value) : Prop :=
  (exists node p, k = full_name node p /\ look s node p = Some v /\
     (In k params \/ (In p params /\ exists n1 n2, n1 <> n2 /\ holds s n1 p /\ holds s n2 p)))
  \/ (In k params /\ exists node, look s node k = Some v /\ forall node', holds s node' k -> node' = node).

Lemma extract_parameters_ok : forall (s : gs) params res, wk s ->
  gs_extract_parameters s params = Ok res ->
  NoDup (dkeys res) /\ forall k v, dget k res = Some v <-> extracted s params k v.
Proof.
  intros s params res W H. unfold gs_extract_parameters in H.
  destruct (fold_res (extract_split s) ([], []) params) as [[single r0]|] eqn:EF; [|discriminate].
  destruct (split_fold _ _ _ _ _ W EF) as [F1 [F2 [F3 F4]]]. simpl in F2, F3, F4.
  specialize (F3 (NoDup_nil _)).
  assert (SD : forall p, In p single -> has_dot p = false).
  { intros p Hp. apply F2 in Hp. destruct Hp as [[]|[_ Hp]]; auto. }
  assert (R0 : forall k v, dget k r0 = Some v <->
     In k params /\ exists node p, k = full_name node p /\ look s node p = Some v).
  { intros k v. rewrite F4. destruct (smem k params) eqn:EM; simpl.
    - apply smem_In in EM. destruct (has_dot k) eqn:EK.
      + destruct (F1 k EM EK) as [node [p [u [D1 [D2 [-> L]]]]]]. rewrite split_full_name by auto.
        split; [eauto|]. intros [_ [n' [p' [E L']]]]. destruct (look_nodot _ _ _ _ W L').
        apply full_name_inj in E; auto. destruct E; subst. auto.
      + split; [discriminate|]. intros [_ [n' [p' [E L']]]]. rewrite E, full_name_has_dot in EK. discriminate.
    - apply smem_false in EM. split; [discriminate|]. tauto. }
  assert (KK : forall k, In k (dkeys r0) -> exists node p, has_dot node = false /\ has_dot p = false /\ k = full_name node p).
  { intros k Hk. apply dget_keys in Hk. destruct (dget k r0) eqn:E; [|congruence].
    apply R0 in E. destruct E as [_ [node [p [-> L]]]]. destruct (look_nodot _ _ _ _ W L). eauto. }
  assert (SINGLE : forall k v, ~ has_dot k = true -> (exists node, look s node k = Some v /\ forall node', holds s node' k -> node' = node) -> 
      In k params -> In k single).
  { intros k v HD _ Hk. apply F2. right. split; auto. destruct (has_dot k); congruence. }
  destruct single as [|s1 sl] eqn:ESL.
  - inversion H; subst res. split; auto. intros k v. rewrite R0. unfold extracted. split.
    + intros [Hk [node [p [E L]]]]. left. exists node, p. auto.
    + intros [[node [p [E [L [Hk|[Hp _]]]]]]|[Hk [node [L _]]]].
      * split; auto. eauto.
      * exfalso. destruct (look_nodot _ _ _ _ W L) as [_ D]. apply (F2 p). auto.
      * exfalso. destruct (look_nodot _ _ _ _ W L) as [_ D]. apply (F2 k). auto.
  - rewrite <- ESL in *. clear ESL s1 sl.
    destruct (fold_left (extract_visit single) (entries (gs_states s)) (r0, [])) as [res' fs] eqn:EV.
    assert (V := visit_inv single r0 (entries (gs_states s)) SD F3 KK). rewrite EV in V.
    destruct V as [V1 [V2 [V3 [V4 V5]]]].
    { intros [[node p] v] HI. apply look_In in HI; auto. now apply look_nodot in HI. }
    { now apply NoDup_entries_keys. }
    cbn [fst snd] in V1, V2, V3, V4, V5.
    destruct (forallb _ _) eqn:EB; [|discriminate]. inversion H; subst res'. clear H.
    split; auto. intros k v. unfold extracted. split.
    + intros Hk. destruct (has_dot k) eqn:EK.
      * left. destruct (V5 k) as [node [p [D1 [D2 ->]]]]; auto.
        { apply dget_keys. congruence. }
        rewrite V4 in Hk by auto. exists node, p. split; auto.
        assert (B : dget (full_name node p) r0 = Some v ->
          look s node p = Some v /\ In (full_name node p) params).
        { intros E. apply R0 in E. destruct E as [HI [n' [p' [E L]]]]. destruct (look_nodot _ _ _ _ W L).
          apply full_name_inj in E; auto. destruct E; subst; auto. }
        destruct (smem p single && _) eqn:ES.
        -- rewrite at_node_holders in Hk by auto. destruct (look s node p) eqn:EL.
           ++ split; auto. right. apply andb_true_iff in ES. destruct ES as [ES1 ES2].
              apply smem_In, F2 in ES1. destruct ES1 as [[]|[ES1 _]]. split; auto. now apply holders_two.
           ++ destruct (B Hk); discriminate.
        -- destruct (B Hk); auto.
      * right. rewrite V3 in Hk by auto. destruct (holders (entries (gs_states s)) k) as [|e [|]] eqn:EH; try discriminate.
        destruct (smem k single) eqn:ES; [|discriminate]. inversion Hk; subst v.
        apply smem_In, F2 in ES. destruct ES as [[]|[ES _]]. split; auto.
        apply (holders_one s k W). eauto.
    + intros [[node [p [-> [L HC]]]]|[Hk HU]].
      * destruct (look_nodot _ _ _ _ W L) as [D1 D2]. rewrite V4 by auto.
        rewrite at_node_holders by auto. rewrite L. destruct HC as [HC|[HC1 HC2]].
        -- assert (E : dget (full_name node p) r0 = Some v) by (apply R0; eauto). rewrite E.
           destruct (_ && _); auto.
        -- apply holders_two in HC2; auto. rewrite HC2.
           assert (E : smem p single = true) by (apply smem_In, F2; auto). rewrite E. auto.
      * assert (D : has_dot k = false). { destruct HU as [node [L _]]. now apply look_nodot in L. }
        rewrite V3 by auto. assert (E : smem k single = true) by (apply smem_In, F2; auto). rewrite E.
        apply (holders_one s k W) in HU. destruct HU as [e [-> <-]]. auto.
Qed.

(** A request can be satisfied. *)
Definition satisfiable (s : gs) (k : string) : Prop :=
  (exists node p, k = full_name node p /\ holds s node p) \/ (exists node, holds s node k).

Lemma extract_parameters_total : forall (s : gs) params, wk s ->
  ((exists res, gs_extract_parameters s params = Ok res) <-> forall k, In k params -> satisfiable s k).
Proof.
  intros s params W. unfold gs_extract_parameters. split.
  - intros [res H] k Hk.
    destruct (fold_res (extract_split s) ([], []) params) as [[single r0]|] eqn:EF; [|discriminate].
    destruct (split_fold _ _ _ _ _ W EF) as [F1 [F2 [F3 F4]]]. simpl in F2.
    destruct (has_dot k) eqn:EK.
    + destruct (F1 k Hk EK) as [node [p [v [_ [_ [-> L]]]]]]. left. exists node, p. split; auto.
      unfold holds. congruence.
    + assert (Hs : In k single) by (apply F2; auto). right.
      destruct single as [|s1 sl] eqn:ESL; [destruct Hs|]. rewrite <- ESL in *. clear ESL s1 sl.
      specialize (F3 (NoDup_nil _)).
      destruct (fold_left (extract_visit single) (entries (gs_states s)) (r0, [])) as [res' fs] eqn:EV.
      assert (V : vinv single r0 (entries (gs_states s)) (res', fs)).
      { rewrite <- EV. apply visit_inv; auto.
        - intros p Hp. apply F2 in Hp. destruct Hp as [[]|[_ Hp]]; auto.
        - intros k' Hk'. apply dget_keys in Hk'. rewrite F4 in Hk'. simpl in Hk'.
          destruct (smem k' params && has_dot k') eqn:E; [|congruence]. apply andb_true_iff in E.
          destruct E as [E1 E2]. apply smem_In in E1. destruct (F1 k' E1 E2) as [n [p [v [? [? [? ?]]]]]]. eauto.
        - intros [[node p] v] HI. apply look_In in HI; auto. now apply look_nodot in HI.
        - now apply NoDup_entries_keys. }
      destruct V as [_ [V2 _]]. simpl in V2.
      destruct (forallb _ _) eqn:EB; [|discriminate]. rewrite forallb_forall in EB.
      apply EB, dmem_dget in Hs. destruct Hs as [nd Hs]. rewrite V2 in Hs.
      destruct (smem k single); [|discriminate].
      destruct (hd_error (holders (entries (gs_states s)) k)) as [e|] eqn:EH; [|discriminate].
      assert (HI : In e (holders (entries (gs_states s)) k)).
      { destruct (holders (entries (gs_states s)) k); inversion EH; simpl; auto. }
      apply holders_look in HI; auto. exists (fst (fst e)). unfold holds. destruct HI. congruence.
  - intros HA.
    assert (HF : forall k, In k params -> has_dot k = true ->
     exists node p v, has_dot node = false /\ has_dot p = false /\ k = full_name node p /\ look s node p = Some v).
    { intros k Hk HD. destruct (HA k Hk) as [[node [p [-> HH]]]|[node HH]]; unfold holds in HH.
      - destruct (look s node p) eqn:E; [|congruence]. destruct (look_nodot _ _ _ _ W E). eauto 8.
      - destruct (look s node k) eqn:E; [|congruence]. destruct (look_nodot _ _ _ _ W E). congruence. }
    destruct (split_fold_total s params ([], []) W HF) as [[single r0] EF]. rewrite EF.
    destruct (split_fold _ _ _ _ _ W EF) as [F1 [F2 [F3 F4]]]. simpl in F2.
    destruct single as [|s1 sl] eqn:ESL; eauto. rewrite <- ESL in *. clear ESL s1 sl.
    specialize (F3 (NoDup_nil _)).
    destruct (fold_left (extract_visit single) (entries (gs_states s)) (r0, [])) as [res' fs] eqn:EV.
    assert (V : vinv single r0 (entries (gs_states s)) (res', fs)).
    { rewrite <- EV. apply visit_inv; auto.
      - intros p Hp. apply F2 in Hp. destruct Hp as [[]|[_ Hp]]; auto.
      - intros k' Hk'. apply dget_keys in Hk'. rewrite F4 in Hk'. simpl in Hk'.
        destruct (smem k' params && has_dot k') eqn:E; [|congruence]. apply andb_true_iff in E.
        destruct E as [E1 E2]. apply smem_In in E1. destruct (F1 k' E1 E2) as [n [p [v [? [? [? ?]]]]]]. eauto.
      - intros [[node p] v] HI. apply look_In in HI; auto. now apply look_nodot in HI.
      - now apply NoDup_entries_keys. }
    destruct V as [_ [V2 _]]. simpl in V2.
    assert (EB : forallb (fun p => dmem p fs) single = true).
    { apply forallb_forall. intros k Hk. assert (Hs := Hk). apply F2 in Hk. destruct Hk as [[]|[Hk HD]].
      unfold dmem. rewrite V2. apply smem_In in Hs. rewrite Hs.
      destruct (HA k Hk) as [[node [p [-> HH]]]|[node HH]].
      - rewrite full_name_has_dot in HD. discriminate.
      - unfold holds in HH. destruct (look s node k) eqn:E; [|congruence].
        assert (HI : In (node, k, v) (holders (entries (gs_states s)) k)) by (apply holders_look; auto).
        destruct (holders (entries (gs_states s)) k); [destruct HI|]. auto. }
    rewrite EB. eauto.
Qed.

(** ** Membership and lookup. *)
Lemma contains_getitem : forall (s : gs) k, wk s ->
  (gs_contains s k = Ok true <-> exists it, gs_getitem s k = Ok it /\ it <> INone).
Proof.
  intros s k W. unfold gs_contains, gs_getitem, dmem.
  destruct (dget k (gs_states s)) eqn:E.
  - split; auto. intros _. eexists; split; eauto. discriminate.
  - destruct (has_dot k).
    + destruct (split_dot k) as [|a [|b [|]]]; try (split; [discriminate|intros [it [H _]]; discriminate]).
      destruct (dget a (gs_states s)); [|split; [discriminate|intros [it [H _]]; discriminate]].
      destruct (dget b d); [|split; [discriminate|intros [it [H _]]; discriminate]].
      split; auto. intros _. eexists; split; eauto; discriminate.
    + destruct (gs_states s) as [|[n d] [|]]; try (split; [discriminate|intros [it [H _]]; discriminate]).
      destruct (dget k d).
      * split; auto. intros _. eexists; split; eauto; discriminate.
      * split; [discriminate|]. intros [it [H1 H2]]. inversion H1; subst. congruence.
Qed.

End P.

(** ** Transposition. *)
Lemma transpose_step_length : forall V n (out : list (dict V)) kv out',
  length out = n -> transpose_step n out kv = Ok out' -> length out' = n /\ length (snd kv) = n.
Proof.
  intros V n out kv out' HL H. unfold transpose_step in H.
  destruct (length (snd kv) =? n) eqn:E; [|discriminate]. simpl in H. inversion H; subst.
  apply Nat.eqb_eq in E. split; auto. rewrite map_length, combine_length, E. lia.
Qed.

Lemma nth_error_combine : forall B C (l : list B) (m : list C) i,
  nth_error (combine l m) i =
  match nth_error l i, nth_error m i with Some a, Some b => Some (a, b) | _, _ => None end.
Proof.
  induction l; intros m i; simpl.
  - destruct i; auto.
  - destruct m; simpl.
    + destruct i; simpl; auto. destruct (nth_error l i); auto.
    + destruct i; simpl; auto.
Qed.

Lemma transpose_fold : forall V n (d : dict (list V)) (out out' : list (dict V)),
  length out = n -> NoDup (dkeys d) -> fold_res (transpose_step n) out d = Ok out' ->
  length out' = n /\
  (forall k l, dget k d = Some l -> length l = n) /\
  forall i o, nth_error out i = Some o -> exists o', nth_error out' i = Some o' /\
    forall k, dget k o' = match dget k d with Some l => nth_error l i | None => dget k o end.
Proof.
  induction d as [|[k l] d IH]; simpl; intros out out' HL ND H.
  - inversion H; subst. split; auto. split; [discriminate|]. intros i o Ho. exists o. auto.
  - destruct (transpose_step n out (k, l)) as [out1|] eqn:E; [|discriminate].
    inversion ND; subst. assert (HS := transpose_step_length _ _ _ _ _ eq_refl E).
    destruct HS as [H1 H2']. simpl in H2'.
    destruct (IH out1 out' H1 H3 H) as [I1 [I2 I3]].
    split; auto. split.
    + intros k0 l0. destruct (String.eqb k0 k); [congruence|]. apply I2.
    + intros i o Ho. unfold transpose_step in E. simpl in E.
      destruct (length l =? length out); [|discriminate]. simpl in E. inversion E; subst.
      assert (HLi : exists x, nth_error l i = Some x).
      { destruct (nth_error l i) eqn:EN; eauto. apply nth_error_None in EN.
        assert (i < length out) by (apply nth_error_Some; congruence). lia. }
      destruct HLi as [x Hx].
      destruct (I3 i (dset k x o)) as [o' [Ho1 Ho2]].
      { rewrite nth_error_map, nth_error_combine, Ho, Hx. reflexivity. }
      exists o'. split; auto. intros k0. rewrite Ho2.
      destruct (String.eqb k0 k) eqn:EK.
      * apply String.eqb_eq in EK; subst k0.
        assert (HN : dget k d = None) by (now apply dget_None). rewrite HN.
        now rewrite dget_dset_same.
      * destruct (dget k0 d); auto. rewrite dget_dset_other; auto. now apply String.eqb_neq.
Qed.

Lemma transpose_fold_total : forall V n (d : dict (list V)) (out : list (dict V)),
  (forall k l, In (k, l) d -> length l = n) -> exists out', fold_res (transpose_step n) out d = Ok out'.
Proof.
  induction d as [|[k l] d IH]; simpl; intros out H; eauto.
  unfold transpose_step at 1. simpl. rewrite (H k l (or_introl eq_refl)), Nat.eqb_refl. simpl.
  apply IH. intros. eapply H; eauto.
Qed.

Lemma transpose_fold_err : forall V n (d : dict (list V)) (out : list (dict V)) e,
  fold_res (transpose_step n) out d = Err e -> e = ValueError /\ exists k l, In (k, l) d /\ length l <> n.
Proof.
  induction d as [|[k l] d IH]; simpl; intros out e H; [discriminate|].
  unfold transpose_step in H at 1. simpl in H.
  destruct (length l =? n) eqn:E; simpl in H.
  - apply IH in H. destruct H as [? [k' [l' [? ?]]]]. split; auto. exists k', l'. auto.
  - inversion H; subst. apply Nat.eqb_neq in E. split; auto. exists k, l. auto.
Qed.

(** ** Equality. *)
Lemma isclose_refl : forall q, isclose q q = true.
Proof.
  intros. unfold isclose. apply Qle_bool_iff.
  assert (E : (Qabs (q - q) == 0)%Q). { setoid_replace (q - q)%Q with 0%Q by ring. reflexivity. }
  rewrite E. assert (0 <= Qabs q)%Q by apply Qabs_nonneg.
  setoid_replace 0%Q with (0 + 0)%Q by ring. apply Qplus_le_compat; [discriminate|].
  apply Qmult_le_0_compat; auto. discriminate.
Qed.

Lemma allclose_refl : forall v, flat_of v <> None -> allclose v v = Ok true.
Proof.
  intros v H. unfold allclose. destruct (flat_of v) as [[b l]|]; [|congruence].
  rewrite Nat.eqb_refl. f_equal. clear.
  induction l; simpl; auto. rewrite isclose_refl; auto.
Qed.

Lemma eq_params_refl : forall d0 d : dict (value Q), NoDup (dkeys d) ->
  (forall k v, In (k, v) d0 -> dget k d = Some v) ->
  (forall k v, dget k d = Some v -> flat_of v <> None) ->
  eq_params d0 d = Ok true.
Proof.
  induction d0 as [|[k v] d0 IH]; simpl; intros d ND H1 H2; auto.
  rewrite (H1 k v) by auto. rewrite allclose_refl by (apply (H2 k), H1; auto).
  apply IH; auto.
Qed.

Lemma fixed_eq_refl : forall f, NoDup (dkeys f) -> fixed_eq f f = true.
Proof.
  intros f ND. unfold fixed_eq. rewrite Nat.eqb_refl. simpl. apply forallb_forall.
  intros [k l] HI. simpl. rewrite (In_dget _ k l f ND HI). apply same_names_iff. tauto.
Qed.

Lemma eq_states_refl : forall st0 st : dict (dict (value Q)), NoDup (dkeys st) ->
  (forall k d, In (k, d) st0 -> dget k st = Some d) ->
  (forall k d, dget k st = Some d -> NoDup (dkeys d)) ->
  (forall k d p v, dget k st = Some d -> dget p d = Some v -> flat_of v <> None) ->
  eq_states st0 st = Ok true.
Proof.
  induction st0 as [|[k d] st0 IH]; simpl; intros st ND H1 H2 H3; auto.
  rewrite (H1 k d) by auto. rewrite Nat.eqb_refl. simpl.
  rewrite eq_params_refl.
  - apply IH; auto.
  - eapply H2; eauto.
  - intros. apply In_dget; auto. eapply H2; eauto.
  - intros. eapply H3; eauto.
Qed.
