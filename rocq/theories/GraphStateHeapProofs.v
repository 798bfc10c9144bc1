(** Lemmas about [GraphStateHeapModel]. *)
From Coq Require Import String List Bool Arith Lia.
From Verif Require Import Base BaseFacts GraphStateHeapModel.
Import ListNotations.
Open Scope list_scope.
Open Scope nat_scope.

Section P.
Context {A : Type}.
Notation heap := (heap A).
Notation hstate := (hstate A).
Notation hval := (hval A).

Definition val_below (lo : nat) (v : hval) := match v with HScalar _ => True | HRef p => p < lo end.
Definition val_above (lo : nat) (v : hval) := match v with HScalar _ => True | HRef p => lo <= p end.

(** All arrays referenced by a state have addresses below / from [lo] on. *)
Definition refs_below (lo : nat) (s : hstate) :=
  forall node var v, hlook s node var = Some v -> val_below lo v.
Definition refs_above (lo : nat) (s : hstate) :=
  forall node var v, hlook s node var = Some v -> val_above lo v.

Definition agree_below (lo : nat) (h h' : heap) := forall p, p < lo -> nth p h' [] = nth p h [].

Lemma set_nth_length : forall B (l : list B) i x, length (set_nth i x l) = length l.
Proof. induction l; destruct i; simpl; intros; auto. Qed.

Lemma set_nth_other : forall B (l : list B) i j x d, i <> j -> nth j (set_nth i x l) d = nth j l d.
Proof.
  induction l; destruct i, j; simpl; intros; auto; try lia.
Qed.

Lemma see_agree : forall lo h h' s node var, refs_below lo s -> agree_below lo h h' ->
  hsee h' s node var = hsee h s node var.
Proof.
  intros lo h h' s node var HB HA. unfold hsee. destruct (hlook s node var) as [v|] eqn:E; auto.
  simpl. f_equal. apply HB in E. destruct v; simpl in *; auto.
Qed.

Lemma alloc_agree : forall lo (h : heap) l, lo <= length h -> agree_below lo h (h ++ [l]).
Proof. intros lo h l H p Hp. rewrite app_nth1 by lia. reflexivity. Qed.

Lemma agree_trans : forall lo h1 h2 h3, agree_below lo h1 h2 -> agree_below lo h2 h3 ->
  agree_below lo h1 h3.
Proof. intros lo h1 h2 h3 H1 H2 p Hp. rewrite H2, H1; auto. Qed.

Lemma agree_refl : forall lo h, agree_below lo h h.
Proof. intros lo h p Hp; auto. Qed.

Lemma look_set : forall (s : hstate) node var w nd vr,
  hlook (mkH (h_n s) (dset node (dset var w (match dget node (h_st s) with Some d => d | None => [] end)) (h_st s))) nd vr
  = if String.eqb nd node && String.eqb vr var then Some w else hlook s nd vr.
Proof.
  intros. unfold hlook; simpl. rewrite dget_dset. destruct (String.eqb nd node) eqn:E; simpl; auto.
  apply String.eqb_eq in E; subst. rewrite dget_dset. destruct (String.eqb vr var); auto.
  destruct (dget node (h_st s)); auto.
Qed.

Lemma hset_copy_step : forall lo h (s : hstate) node var arg fc,
  h_n s <> 1 -> lo <= length h -> refs_above lo s ->
  (forall p, arg = ArgArray p -> fc = true) ->
  let '(h', s') := hset h s node var arg fc in
  h_n s' = h_n s /\ lo <= length h' /\ refs_above lo s' /\ agree_below lo h h'.
Proof.
  intros lo h s node var arg fc HN HL HA HF. unfold hset.
  destruct (hstore (h_n s) fc h arg) as [[h' w]|] eqn:E; auto using agree_refl.
  unfold hstore in E. apply Nat.eqb_neq in HN. rewrite HN in E.
  assert (G : exists l, h' = h ++ [l] /\ w = HRef (length h)).
  { destruct arg as [a|p].
    - unfold halloc in E. inversion E; eauto.
    - rewrite (HF p eq_refl) in E. destruct (length (nth p h []) =? h_n s); [|discriminate E].
      unfold halloc in E. inversion E; eauto. }
  destruct G as [l [-> ->]]. simpl. split; auto. split; [rewrite app_length; lia|]. split.
  - intros nd vr v Hv. rewrite look_set in Hv. destruct (_ && _).
    + inversion Hv; subst. simpl. auto.
    + eauto.
  - now apply alloc_agree.
Qed.

Lemma hstep_above : forall lo h (s : hstate) o h' s',
  h_n s <> 1 -> lo <= length h -> refs_above lo s -> hstep (h, s) o = (h', s') ->
  h_n s' = h_n s /\ lo <= length h' /\ refs_above lo s' /\ agree_below lo h h'.
Proof.
  intros lo h s o h' s' HN HL HA H. destruct o; simpl in H.
  - inversion H; subst. split; auto. unfold hwrite. destruct (hlook s' node var) as [[|p]|] eqn:E;
      auto using agree_refl.
    rewrite set_nth_length. split; auto. split; auto. apply HA in E. simpl in E.
    intros q Hq. rewrite set_nth_other; auto. lia.
  - assert (G := hset_copy_step lo h s node var (ArgScalar a) false HN HL HA).
    rewrite H in G. apply G. discriminate.
  - assert (G := hset_copy_step lo h s node var (ArgArray addr) true HN HL HA).
    rewrite H in G. apply G. auto.
Qed.

Lemma hrun_above : forall ops lo h (s : hstate) h' s',
  h_n s <> 1 -> lo <= length h -> refs_above lo s -> hrun (h, s) ops = (h', s') ->
  h_n s' = h_n s /\ lo <= length h' /\ refs_above lo s' /\ agree_below lo h h'.
Proof.
  induction ops as [|o ops IH]; intros lo h s h' s' HN HL HA H.
  - inversion H; subst. auto using agree_refl.
  - unfold hrun in H. simpl in H. change (hrun (hstep (h, s) o) ops = (h', s')) in H.
    destruct (hstep (h, s) o) as [h1 s1] eqn:E.
    destruct (hstep_above lo h s o h1 s1 HN HL HA E) as [N1 [L1 [A1 G1]]].
    destruct (IH lo h1 s1 h' s') as [N2 [L2 [A2 G2]]]; auto; [congruence|].
    split; [congruence|]. split; auto. split; auto. eapply agree_trans; eauto.
Qed.

(** Set-theoretic dual: operations through a state whose arrays avoid the block
    [lo, hi) leave that block alone, and so does everything they allocate. *)
Definition val_avoids (lo hi : nat) (v : hval) :=
  match v with HScalar _ => True | HRef p => p < lo \/ hi <= p end.
Definition refs_avoid (lo hi : nat) (s : hstate) :=
  forall node var v, hlook s node var = Some v -> val_avoids lo hi v.
Definition agree_on (lo hi : nat) (h h' : heap) := forall p, lo <= p < hi -> nth p h' [] = nth p h [].

Lemma hstep_avoid : forall lo hi h (s : hstate) o h' s',
  h_n s <> 1 -> hi <= length h -> refs_avoid lo hi s -> hstep (h, s) o = (h', s') ->
  h_n s' = h_n s /\ hi <= length h' /\ refs_avoid lo hi s' /\ agree_on lo hi h h'.
Proof.
  intros lo hi h s o h' s' HN HL HA H.
  assert (SET : forall node var arg fc h' s', (forall p, arg = ArgArray p -> fc = true) ->
     hset h s node var arg fc = (h', s') ->
     h_n s' = h_n s /\ hi <= length h' /\ refs_avoid lo hi s' /\ agree_on lo hi h h').
  { clear H h' s' o. intros node var arg fc h' s' HF H. unfold hset in H.
    destruct (hstore (h_n s) fc h arg) as [[h1 w]|] eqn:E.
    2:{ inversion H; subst. repeat split; auto. }
    unfold hstore in E. apply Nat.eqb_neq in HN. rewrite HN in E.
    assert (G : exists l, h1 = h ++ [l] /\ w = HRef (length h)).
    { destruct arg as [a|p].
      - unfold halloc in E. inversion E; eauto.
      - rewrite (HF p eq_refl) in E. destruct (length (nth p h []) =? h_n s); [|discriminate E].
        unfold halloc in E. inversion E; eauto. }
    destruct G as [l [-> ->]]. inversion H; subst. simpl.
    split; auto. split; [rewrite app_length; lia|]. split.
    - intros nd vr v Hv. rewrite look_set in Hv. destruct (_ && _).
      + inversion Hv; subst. simpl. auto.
      + eauto.
    - intros p Hp. rewrite app_nth1 by lia. auto. }
  destruct o; simpl in H.
  - inversion H; subst. split; auto. unfold hwrite.
    destruct (hlook s' node var) as [[|p]|] eqn:E; try (repeat split; auto; fail).
    rewrite set_nth_length. split; auto. split; auto. apply HA in E. simpl in E.
    intros q Hq. rewrite set_nth_other; auto. lia.
  - eapply SET; [|exact H]. intros p Hp. discriminate Hp.
  - eapply SET; [|exact H]. auto.
Qed.

Lemma hrun_avoid : forall ops lo hi h (s : hstate) h' s',
  h_n s <> 1 -> hi <= length h -> refs_avoid lo hi s -> hrun (h, s) ops = (h', s') ->
  h_n s' = h_n s /\ hi <= length h' /\ refs_avoid lo hi s' /\ agree_on lo hi h h'.
Proof.
  induction ops as [|o ops IH]; intros lo hi h s h' s' HN HL HA H.
  - inversion H; subst. repeat split; auto.
  - unfold hrun in H. simpl in H. change (hrun (hstep (h, s) o) ops = (h', s')) in H.
    destruct (hstep (h, s) o) as [h1 s1] eqn:E.
    destruct (hstep_avoid lo hi h s o h1 s1 HN HL HA E) as [N1 [L1 [A1 G1]]].
    destruct (IH lo hi h1 s1 h' s') as [N2 [L2 [A2 G2]]]; auto; [congruence|].
    split; [congruence|]. split; auto. split; auto.
    intros p Hp. rewrite G2, G1; auto.
Qed.

(** ** The copy. *)
Lemma hcopy_params_spec : forall n d (h : heap) h' d', n <> 1 ->
  (forall k v, In (k, v) d -> val_below (length h) v) ->
  hcopy_params n h d = (h', d') ->
  length h <= length h' /\ agree_below (length h) h h' /\
  forall k, match dget k d with
            | Some v => exists p, dget k d' = Some (HRef p) /\ length h <= p < length h' /\
                                  nth p h' [] = hread h v
            | None => dget k d' = None
            end.
Proof.
  induction d as [|[k v] d IH]; simpl; intros h h' d' HN HB H.
  - inversion H; subst. split; auto. split; auto using agree_refl.
  - unfold hcopy_val in H. assert (HN' := HN). apply Nat.eqb_neq in HN'. rewrite HN' in H.
    unfold halloc in H.
    destruct (hcopy_params n (h ++ [hread h v]) d) as [h2 d2] eqn:E. inversion H; subst.
    assert (HB' : forall k0 v0, In (k0, v0) d -> val_below (length (h ++ [hread h v])) v0).
    { intros k0 v0 HI. assert (B := HB k0 v0 (or_intror HI)). destruct v0; simpl in *; auto.
      rewrite app_length; simpl; lia. }
    destruct (IH _ _ _ HN HB' E) as [I1 [I2 I3]]. rewrite app_length in I1, I3. simpl in I1, I3.
    split; [lia|]. split.
    + intros p Hp. rewrite I2 by (rewrite app_length; simpl; lia). rewrite app_nth1 by lia. auto.
    + intros k0. simpl. destruct (String.eqb k0 k) eqn:EK.
      * exists (length h). split; auto. split; [lia|].
        rewrite I2 by (rewrite app_length; simpl; lia). rewrite app_nth2 by lia.
        now rewrite Nat.sub_diag.
      * specialize (I3 k0). destruct (dget k0 d) as [v0|] eqn:E0; auto.
        destruct I3 as [p [P1 [P2 P3]]]. exists p. split; auto. split; [lia|].
        rewrite P3. assert (B := HB k0 v0 (or_intror (dget_In _ _ _ _ E0))).
        destruct v0; simpl in *; auto. rewrite app_nth1 by lia. auto.
Qed.

Lemma hcopy_states_spec : forall n st (h : heap) h' st', n <> 1 ->
  (forall node d k v, In (node, d) st -> In (k, v) d -> val_below (length h) v) ->
  hcopy_states n h st = (h', st') ->
  length h <= length h' /\ agree_below (length h) h h' /\
  forall node, match dget node st with
               | Some d => exists d', dget node st' = Some d' /\
                   forall k, match dget k d with
                             | Some v => exists p, dget k d' = Some (HRef p) /\
                                  length h <= p < length h' /\ nth p h' [] = hread h v
                             | None => dget k d' = None
                             end
               | None => dget node st' = None
               end.
Proof.
  induction st as [|[node d] st IH]; simpl; intros h h' st' HN HB H.
  - inversion H; subst. split; auto. split; auto using agree_refl.
  - destruct (hcopy_params n h d) as [h1 d1] eqn:E1.
    destruct (hcopy_states n h1 st) as [h2 st2] eqn:E2. inversion H; subst.
    destruct (hcopy_params_spec n d h h1 d1 HN) as [P1 [P2 P3]]; auto.
    { intros. eapply HB; eauto. }
    destruct (IH h1 h' st2 HN) as [Q1 [Q2 Q3]]; auto.
    { intros nd d0 k v H1 H2. assert (B := HB nd d0 k v (or_intror H1) H2).
      destruct v; simpl in *; auto. lia. }
    split; [lia|]. split.
    + intros p Hp. rewrite Q2 by lia. auto.
    + intros nd. simpl. destruct (String.eqb nd node) eqn:EN.
      * exists d1. split; auto. intros k. specialize (P3 k). destruct (dget k d); auto.
        destruct P3 as [p [R1 [R2 R3]]]. exists p. split; auto. split; [lia|]. rewrite Q2; auto. lia.
      * specialize (Q3 nd). destruct (dget nd st) as [d0|] eqn:E0; auto.
        destruct Q3 as [d' [R1 R2]]. exists d'. split; auto. intros k. specialize (R2 k).
        destruct (dget k d0) as [v0|] eqn:Ek; auto. destruct R2 as [p [S1 [S2 S3]]].
        exists p. split; auto. split; [lia|]. rewrite S3.
        assert (B := HB nd d0 k v0 (or_intror (dget_In _ _ _ _ E0)) (dget_In _ _ _ _ Ek)).
        destruct v0; simpl in *; auto.
Qed.

Lemma hcopy_spec : forall (h : heap) (s : hstate) h' c, h_n s <> 1 ->
  (forall node d k v, In (node, d) (h_st s) -> In (k, v) d -> val_below (length h) v) ->
  hcopy h s = (h', c) ->
  h_n c = h_n s /\ length h <= length h' /\ agree_below (length h) h h' /\
  refs_above (length h) c /\ refs_below (length h') c /\
  forall node var, hsee h' c node var = hsee h s node var.
Proof.
  intros h s h' c HN HB H. unfold hcopy in H.
  destruct (hcopy_states (h_n s) h (h_st s)) as [h2 st2] eqn:E. inversion H; subst. simpl.
  destruct (hcopy_states_spec _ _ _ _ _ HN HB E) as [P1 [P2 P3]].
  split; auto. split; auto. split; auto.
  assert (G : forall node var,
    match hlook s node var with
    | Some v => exists p, hlook (mkH (h_n s) st2) node var = Some (HRef p) /\
                  length h <= p < length h' /\ nth p h' [] = hread h v
    | None => hlook (mkH (h_n s) st2) node var = None
    end).
  { intros node var. unfold hlook; simpl. specialize (P3 node). unfold dict in *.
    match type of P3 with match ?x with _ => _ end => destruct x as [d|] eqn:ED end.
    - destruct P3 as [d' [Q1 Q2]]. rewrite Q1. specialize (Q2 var).
      revert Q2. destruct (dget var d); auto.
    - now rewrite P3. }
  split; [|split].
  - intros node var v Hv. specialize (G node var). destruct (hlook s node var).
    + destruct G as [p [G1 [G2 G3]]]. rewrite Hv in G1. inversion G1; subst. simpl. lia.
    + congruence.
  - intros node var v Hv. specialize (G node var). destruct (hlook s node var).
    + destruct G as [p [G1 [G2 G3]]]. rewrite Hv in G1. inversion G1; subst. simpl. lia.
    + congruence.
  - intros node var. specialize (G node var). unfold hsee. destruct (hlook s node var).
    + destruct G as [p [G1 [G2 G3]]]. rewrite G1. simpl. now rewrite G3.
    + now rewrite G.
Qed.


(** ** Two states used side by side. *)
Definition apart (h : heap) (s c : hstate) : Prop :=
  h_n s <> 1 /\ h_n c <> 1 /\ refs_below (length h) s /\ refs_below (length h) c /\
  forall nd1 vr1 nd2 vr2 p, hlook s nd1 vr1 = Some (HRef p) -> hlook c nd2 vr2 <> Some (HRef p).

Lemma apart_sym : forall h s c, apart h s c -> apart h c s.
Proof.
  intros h s c (H1 & H2 & H3 & H4 & H5). repeat split; auto.
  intros nd1 vr1 nd2 vr2 p Ha Hb. eapply H5; eauto.
Qed.

Lemma step_apart : forall h s c o h' c', apart h s c -> hstep (h, c) o = (h', c') ->
  apart h' s c' /\ forall node var, hsee h' s node var = hsee h s node var.
Proof.
  intros h s c o h' c' (H1 & H2 & H3 & H4 & H5) H.
  assert (SET : forall node var arg fc h' c', (forall p, arg = ArgArray p -> fc = true) ->
     hset h c node var arg fc = (h', c') ->
     apart h' s c' /\ forall node var, hsee h' s node var = hsee h s node var).
  { clear H h' c' o. intros node var arg fc h' c' HF H. unfold hset in H.
    destruct (hstore (h_n c) fc h arg) as [[h1 w]|] eqn:E.
    2:{ inversion H; subst. repeat split; auto. }
    unfold hstore in E. assert (HN := H2). apply Nat.eqb_neq in HN. rewrite HN in E.
    assert (G : exists l, h1 = h ++ [l] /\ w = HRef (length h)).
    { destruct arg as [a|p].
      - unfold halloc in E. inversion E; eauto.
      - rewrite (HF p eq_refl) in E. destruct (length (nth p h []) =? h_n c); [|discriminate E].
        unfold halloc in E. inversion E; eauto. }
    destruct G as [l [-> ->]]. inversion H; subst. split.
    - repeat split; auto.
      + intros nd vr v Hv. apply H3 in Hv. destruct v; simpl in *; auto. rewrite app_length; simpl; lia.
      + intros nd vr v Hv. rewrite look_set in Hv. rewrite app_length; simpl.
        destruct (_ && _).
        * inversion Hv; subst. simpl. lia.
        * apply H4 in Hv. destruct v; simpl in *; auto. lia.
      + intros nd1 vr1 nd2 vr2 p Ha Hb. rewrite look_set in Hb. destruct (_ && _).
        * inversion Hb; subst. apply H3 in Ha. simpl in Ha. lia.
        * eapply H5; eauto.
    - intros nd vr. eapply see_agree; eauto. now apply alloc_agree. }
  destruct o; simpl in H.
  - inversion H; subst. unfold hwrite.
    destruct (hlook c' node var) as [[a|p]|] eqn:E; try (split; [repeat split; auto|auto]; fail).
    split.
    + repeat split; auto; unfold refs_below; rewrite set_nth_length; auto.
    + intros nd vr. unfold hsee. destruct (hlook s nd vr) as [[a|q]|] eqn:E2; auto. simpl.
      rewrite set_nth_other; auto. intros ->. eapply H5; eauto.
  - eapply SET; [|exact H]. intros p Hp. discriminate Hp.
  - eapply SET; [|exact H]. auto.
Qed.

(** A history of operations, each through one of the two states ([true]: the first). *)
Definition hstep2 (w : heap * hstate * hstate) (o : bool * hop A) : heap * hstate * hstate :=
  let '(h, s, c) := w in
  if fst o then let '(h', s') := hstep (h, s) (snd o) in (h', s', c)
  else let '(h', c') := hstep (h, c) (snd o) in (h', s, c').
Definition hrun2 (w : heap * hstate * hstate) (ops : list (bool * hop A)) := fold_left hstep2 ops w.

Lemma hrun2_apart : forall ops h s c h' s' c', apart h s c -> hrun2 (h, s, c) ops = (h', s', c') ->
  apart h' s' c'.
Proof.
  induction ops as [|[b o] ops IH]; intros h s c h' s' c' HA H.
  - inversion H; subst. auto.
  - unfold hrun2 in H. cbn [fold_left hstep2 fst snd] in H. destruct b.
    + destruct (hstep (h, s) o) as [h1 s1] eqn:E. eapply IH; [|unfold hrun2; exact H].
      apply apart_sym. apply apart_sym in HA. eapply step_apart; eauto.
    + destruct (hstep (h, c) o) as [h1 c1] eqn:E. eapply IH; [|unfold hrun2; exact H].
      eapply step_apart; eauto.
Qed.

Lemma hcopy_apart : forall (h : heap) (s : hstate) h' c, h_n s <> 1 ->
  (forall node d k v, In (node, d) (h_st s) -> In (k, v) d -> val_below (length h) v) ->
  hcopy h s = (h', c) -> apart h' s c.
Proof.
  intros h s h' c HN HB H. destruct (hcopy_spec h s h' c HN HB H) as (P1 & P2 & P3 & P4 & P5 & P6).
  assert (RB : refs_below (length h) s).
  { intros nd vr v Hv. unfold hlook in Hv. destruct (dget nd (h_st s)) as [d|] eqn:E; [|discriminate].
    eapply HB; eauto using dget_In. }
  repeat split; auto; try congruence.
  - intros nd vr v Hv. apply RB in Hv. destruct v; simpl in *; auto. lia.
  - intros nd1 vr1 nd2 vr2 p Ha Hb. apply RB in Ha. apply P4 in Hb. simpl in *. lia.
Qed.

End P.
