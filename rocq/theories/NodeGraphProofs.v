(** Lemmas about [NodeGraphModel]: graph positions. *)
From Coq Require Import String Ascii List Bool Arith ZArith Lia Relations.
From Verif Require Import Base BaseFacts Numerals GraphStateModel NodeGraphModel.
Import ListNotations.
Open Scope string_scope.
Open Scope list_scope.
Open Scope nat_scope.

Ltac sp := repeat match goal with |- _ /\ _ => split end.

Section P.
Context {A : Type}.
Notation node := (node A).
Notation nheap := (nheap A).
Notation setter := (setter A).

(** ** Heap updates *)
Lemma upd_length : forall B (l : list B) i x, length (upd i x l) = length l.
Proof. induction l; destruct i; simpl; intros; auto. Qed.
Lemma nth_upd : forall B (l : list B) i x k,
  nth_error (upd i x l) k = if k =? i then (if i <? length l then Some x else None) else nth_error l k.
Proof.
  induction l as [|y l IH]; intros i x k.
  - destruct i; simpl; destruct (k =? _) eqn:E; auto; destruct k; reflexivity.
  - destruct i as [|i], k as [|k]; simpl; auto. rewrite IH. reflexivity.
Qed.
Lemma nth_upd_some : forall B (l : list B) i x k y, nth_error l i = Some y ->
  nth_error (upd i x l) k = if k =? i then Some x else nth_error l k.
Proof.
  intros. rewrite nth_upd. destruct (k =? i); auto.
  assert (i < length l) by (apply nth_error_Some; congruence).
  apply Nat.ltb_lt in H0. now rewrite H0.
Qed.
Lemma mem_In : forall i l, existsb (Nat.eqb i) l = true <-> In i l.
Proof.
  intros. rewrite existsb_exists. split.
  - intros [x [H1 H2]]. apply Nat.eqb_eq in H2. congruence.
  - intros H. exists i. split; auto. apply Nat.eqb_refl.
Qed.
Lemma mem_false : forall i l, existsb (Nat.eqb i) l = false <-> ~ In i l.
Proof.
  intros. rewrite <- mem_In. destruct (existsb _ _); split; congruence.
Qed.

(** ** Dependencies *)
Definition sdeps (i : nat) (l : list setter) : list nat :=
  flat_map (fun s => match st_dep s with Some j => if j =? i then [] else [j] | None => [] end) l.
Definition ndeps (h : nheap) (i : nat) : list nat :=
  match nth_error h i with Some n => sdeps i (map snd (nd_setters n)) | None => [] end.

Definition idx (k : nat) (l : list nat) : option nat :=
  (fix go p l := match l with [] => None | x :: l' => if k =? x then Some p else go (S p) l' end) 0 l.
Definition idx_from (k : nat) := fix go p l :=
  match l with [] => None | x :: l' => if k =? x then Some p else go (S p) l' end.
Lemma idx_from_shift : forall k l p, idx_from k p l = option_map (fun q => p + q) (idx_from k 0 l).
Proof.
  induction l as [|x l IH]; simpl; intros p; auto. destruct (k =? x); simpl; [now rewrite Nat.add_0_r|].
  rewrite IH, (IH 1). destruct (idx_from k 0 l); simpl; auto; try (f_equal; lia).
Qed.
Lemma idx_app : forall k l1 l2, idx k (l1 ++ l2) =
  match idx k l1 with Some p => Some p | None => option_map (fun q => length l1 + q) (idx k l2) end.
Proof.
  intros k l1 l2. unfold idx. fold (idx_from k).
  assert (G : forall l1 p, idx_from k p (l1 ++ l2) =
    match idx_from k p l1 with Some p => Some p | None => option_map (fun q => p + length l1 + q) (idx_from k 0 l2) end).
  { induction l0 as [|x l IH]; simpl; intros p.
    - rewrite idx_from_shift. destruct (idx_from k 0 l2); simpl; auto; try (f_equal; lia).
    - destruct (k =? x); auto. rewrite IH. destruct (idx_from k (S p) l); auto.
      destruct (idx_from k 0 l2); simpl; auto; try (f_equal; lia). }
  apply G.
Qed.
Lemma idx_In : forall k l, idx k l <> None <-> In k l.
Proof.
  intros k l. unfold idx. fold (idx_from k). generalize 0.
  induction l as [|x l IH]; simpl; intros p; [tauto|]. destruct (k =? x) eqn:E.
  - apply Nat.eqb_eq in E. split; [auto|discriminate].
  - apply Nat.eqb_neq in E. rewrite IH. split; [auto|]. intros [H|H]; auto; congruence.
Qed.
Lemma idx_None : forall k l, ~ In k l -> idx k l = None.
Proof. intros k l H. destruct (idx k l) eqn:E; auto. exfalso. apply H, idx_In. congruence. Qed.
Lemma idx_nth : forall k l p, idx k l = Some p -> nth_error l p = Some k.
Proof.
  intros k l. unfold idx. fold (idx_from k).
  assert (G : forall l q p, idx_from k q l = Some p -> q <= p /\ nth_error l (p - q) = Some k).
  { induction l0 as [|x l0 IH]; simpl; intros q p H; [discriminate|]. destruct (k =? x) eqn:E.
    - inversion H; subst. apply Nat.eqb_eq in E. subst. rewrite Nat.sub_diag. auto.
    - apply IH in H. destruct H as [H1 H2]. split; [lia|].
      replace (p - q) with (S (p - S q)) by lia. exact H2. }
  intros p H. apply G in H. rewrite Nat.sub_0_r in H. tauto.
Qed.
Lemma nth_idx : forall k l p, NoDup l -> nth_error l p = Some k -> idx k l = Some p.
Proof.
  intros k l p ND H. destruct (idx k l) as [q|] eqn:E.
  - apply idx_nth in E. f_equal. eapply NoDup_nth_error; eauto; [|congruence].
    apply nth_error_Some. congruence.
  - exfalso. assert (In k l) by (eapply nth_error_In; eauto). apply idx_In in H0. congruence.
Qed.

(** ** What a call of [set_graph_positions] does to the heap *)
Definition numbered (h h' : nheap) (base : nat) (new : list nat) : Prop :=
  forall k, nth_error h' k =
    match idx k new with
    | Some p => option_map (fun n => renamed (with_pos n (Some (base + p)))) (nth_error h k)
    | None => nth_error h k
    end.

Lemma numbered_refl : forall h base, numbered h h base [].
Proof. intros h base k. reflexivity. Qed.

Lemma numbered_trans : forall h1 h2 h3 base l1 l2, (forall k, In k l1 -> ~ In k l2) ->
  numbered h1 h2 base l1 -> numbered h2 h3 (base + length l1) l2 -> numbered h1 h3 base (l1 ++ l2).
Proof.
  intros h1 h2 h3 base l1 l2 D N1 N2 k. rewrite idx_app, N2.
  destruct (idx k l1) as [p|] eqn:E1.
  - assert (idx k l2 = None). { apply idx_None, D, idx_In. congruence. }
    rewrite H, N1, E1. reflexivity.
  - destruct (idx k l2) as [q|] eqn:E2; simpl.
    + rewrite N1, E1. destruct (nth_error h1 k); simpl; auto. now rewrite Nat.add_assoc.
    + rewrite N1, E1. reflexivity.
Qed.

Lemma numbered_setters : forall h h' base new k, numbered h h' base new ->
  option_map (fun n : node => nd_setters n) (nth_error h' k) = option_map (fun n : node => nd_setters n) (nth_error h k).
Proof.
  intros h h' base new k N. rewrite N. destruct (idx k new); auto. destruct (nth_error h k); auto.
Qed.
Lemma numbered_deps : forall h h' base new k, numbered h h' base new -> ndeps h' k = ndeps h k.
Proof.
  intros h h' base new k N. assert (S := numbered_setters _ _ _ _ k N). unfold ndeps.
  destruct (nth_error h' k), (nth_error h k); simpl in S; inversion S as [S1]; rewrite ?S1; auto.
Qed.
Lemma numbered_length : forall h h' base new, numbered h h' base new -> length h' = length h.
Proof.
  intros h h' base new N.
  assert (G : forall k, nth_error h' k = None <-> nth_error h k = None).
  { intros k. rewrite N. destruct (idx k new); [|tauto]. destruct (nth_error h k); simpl; split; congruence. }
  apply Nat.le_antisymm.
  - apply nth_error_None. apply G. apply nth_error_None. lia.
  - apply nth_error_None. apply G. apply nth_error_None. lia.
Qed.

Lemma numbered_one : forall h i n base, nth_error h i = Some n ->
  numbered h (upd i (renamed (with_pos n (Some base))) h) base [i].
Proof.
  intros h i n base E k. rewrite (nth_upd_some _ _ _ _ _ _ E). unfold idx. destruct (k =? i) eqn:EK; auto.
  apply Nat.eqb_eq in EK; subst. rewrite E. simpl. now rewrite Nat.add_0_r.
Qed.

Definition reach (h : nheap) : nat -> nat -> Prop := clos_refl_trans nat (fun i j => In j (ndeps h i)).

Lemma reach_ext : forall h h' i j, (forall k, ndeps h' k = ndeps h k) -> reach h' i j -> reach h i j.
Proof.
  intros h h' i j E H. induction H.
  - apply rt_step. now rewrite <- E.
  - apply rt_refl.
  - eapply rt_trans; eauto.
Qed.

Lemma positions_spec : forall fuel h seen i h' seen',
  NoDup seen -> positions fuel h seen i = Ok (h', seen') ->
  exists new, seen' = seen ++ new /\ NoDup seen' /\ In i seen' /\
    numbered h h' (length seen) new /\
    (forall k, In k new -> reach h i k /\ k < length h) /\
    (forall k j, In k new -> In j (ndeps h k) -> In j seen') /\
    (~ In i seen -> exists rest, new = i :: rest).
Proof.
  induction fuel as [|f IH]; simpl; intros h seen i h' seen' ND H; [discriminate|].
  destruct (existsb (Nat.eqb i) seen) eqn:EM.
  { apply mem_In in EM. inversion H; subst. exists []. rewrite app_nil_r.
    sp; auto using numbered_refl; simpl; tauto. }
  apply mem_false in EM.
  destruct (nth_error h i) as [n|] eqn:EN; [|discriminate].
  assert (N0 := numbered_one h i n (length seen) EN).
  set (h0 := upd i (renamed (with_pos n (Some (length seen)))) h) in *.
  assert (ND0 : NoDup (seen ++ [i])).
  { apply NoDup_app_single; auto. }
  (* the loop over the setters *)
  assert (L : forall ss h1 seen1 new1 h2 seen2,
    (forall s, In s ss -> In s (map snd (nd_setters n))) ->
    seen1 = (seen ++ [i]) ++ new1 -> NoDup seen1 ->
    numbered h h1 (length seen) (i :: new1) ->
    (forall k, In k new1 -> reach h i k /\ k < length h) ->
    (forall k j, In k new1 -> In j (ndeps h k) -> In j seen1) ->
    fold_res (fun hs s =>
                   match st_dep s with
                   | Some j => if j =? i then Ok hs else positions f (fst hs) (snd hs) j
                   | None => Ok hs
                   end) (h1, seen1) ss = Ok (h2, seen2) ->
    exists new2, seen2 = (seen ++ [i]) ++ new2 /\ NoDup seen2 /\
      (forall k, In k seen1 -> In k seen2) /\
      numbered h h2 (length seen) (i :: new2) /\
      (forall k, In k new2 -> reach h i k /\ k < length h) /\
      (forall k j, In k new2 -> In j (ndeps h k) -> In j seen2) /\
      (forall j, In j (sdeps i ss) -> In j seen2)).
  { induction ss as [|s ss IHs]; intros h1 seen1 new1 h2 seen2 HS E1 ND1 N1 R1 C1 HF; cbn [fold_res] in HF.
    - inversion HF; subst. exists new1. sp; auto. simpl; tauto.
    - destruct (st_dep s) as [j|] eqn:ED.
      + destruct (j =? i) eqn:EJ.
        * destruct (IHs h1 seen1 new1 h2 seen2) as (new2 & Q1 & Q2 & Q2' & Q3 & Q4 & Q5 & Q6); auto.
          { intros; apply HS; now right. }
          exists new2. sp; auto.
          intros j' Hj'. apply Q6. unfold sdeps in *. simpl in Hj'. rewrite ED, EJ in Hj'. exact Hj'.
        * cbn [fst snd] in HF. destruct (positions f h1 seen1 j) as [[h3 seen3]|] eqn:EP; [|discriminate].
          destruct (IH h1 seen1 j h3 seen3 ND1 EP) as (newj & P1 & P2 & P3 & P4 & P5 & P6 & _).
          assert (DE : forall k, ndeps h1 k = ndeps h k) by (intros; eapply numbered_deps; eauto).
          assert (IJ : In j (ndeps h i)).
          { unfold ndeps. rewrite EN. unfold sdeps. apply in_flat_map. exists s.
            split; [apply HS; now left|]. rewrite ED, EJ. now left. }
          destruct (IHs h3 seen3 (new1 ++ newj) h2 seen2) as (new2 & Q1 & Q2 & Q2' & Q3 & Q4 & Q5 & Q6); auto.
          { intros; apply HS; now right. }
          { rewrite P1, E1. now rewrite app_assoc. }
          { change (i :: new1 ++ newj) with ((i :: new1) ++ newj).
            eapply numbered_trans; eauto.
            - intros k Hk1 Hk2. rewrite P1 in P2.
              assert (H0 : In k seen1).
              { rewrite E1. destruct Hk1 as [<-|Hk1]; apply in_app_iff; [left|right; auto].
                apply in_app_iff. right; now left. }
              clear - P2 H0 Hk2. induction seen1 as [|x l IHl]; simpl in *; [tauto|].
              inversion P2; subst. destruct H0 as [->|H0]; auto. apply H2. apply in_app_iff; auto.
            - replace (length seen + length (i :: new1)) with (length seen1); auto.
              rewrite E1, !app_length. simpl. lia. }
          { intros k Hk. apply in_app_iff in Hk. destruct Hk as [Hk|Hk]; auto.
            destruct (P5 k Hk) as [P5a P5b]. rewrite (numbered_length _ _ _ _ N1) in P5b. split; auto.
            eapply rt_trans; [apply rt_step; exact IJ|]. eapply reach_ext; eauto. }
          { intros k j' Hk Hj'. apply in_app_iff in Hk. destruct Hk as [Hk|Hk].
            - rewrite P1. apply in_app_iff. left. eauto.
            - apply (P6 k); auto. now rewrite DE. }
          exists new2. sp; auto.
          { intros k Hk. apply Q2'. rewrite P1. apply in_app_iff; auto. }
          { intros j' Hj'. unfold sdeps in Hj'. simpl in Hj'. rewrite ED, EJ in Hj'.
            destruct Hj' as [<-|Hj']; auto. }
      + destruct (IHs h1 seen1 new1 h2 seen2) as (new2 & Q1 & Q2 & Q2' & Q3 & Q4 & Q5 & Q6); auto.
        { intros; apply HS; now right. }
        exists new2. sp; auto.
        intros j' Hj'. apply Q6. unfold sdeps in *. simpl in Hj'. rewrite ED in Hj'. exact Hj'. }
  destruct (L (map snd (nd_setters n)) h0 (seen ++ [i]) [] h' seen')
    as (new2 & Q1 & Q2 & Q2' & Q3 & Q4 & Q5 & Q6); auto.
  { now rewrite app_nil_r. }
  { simpl; tauto. }
  { simpl; tauto. }
  exists (i :: new2). rewrite <- app_assoc in Q1. simpl in Q1. sp; auto.
  - apply Q2'. apply in_app_iff. right; now left.
  - intros k [<-|H0]; [split; [apply rt_refl|apply nth_error_Some; congruence]|apply Q4; auto].
  - intros k j [<-|Hk] Hj; [|eauto]. apply Q6. unfold ndeps in Hj. now rewrite EN in Hj.
  - intros _. eauto.
Qed.

(** Every dependency is an existing node. *)
Definition closed (h : nheap) : Prop := forall i j, In j (ndeps h i) -> j < length h.

Lemma NoDup_bound : forall (l : list nat) n, NoDup l -> (forall x, In x l -> x < n) -> length l <= n.
Proof.
  intros l n ND H. rewrite <- (seq_length n 0). apply NoDup_incl_length; auto.
  intros x Hx. apply in_seq. apply H in Hx. lia.
Qed.

Lemma positions_total : forall fuel h seen i, closed h -> i < length h -> NoDup seen ->
  (forall x, In x seen -> x < length h) -> length h - length seen < fuel ->
  exists r, positions fuel h seen i = Ok r.
Proof.
  induction fuel as [|f IH]; intros h seen i HC HI ND HB HF; [lia|]. simpl.
  destruct (existsb (Nat.eqb i) seen) eqn:EM; [eauto|]. apply mem_false in EM.
  destruct (nth_error h i) as [n|] eqn:EN; [|apply nth_error_None in EN; lia].
  assert (N0 := numbered_one h i n (length seen) EN).
  set (h0 := upd i (renamed (with_pos n (Some (length seen)))) h) in *.
  assert (ND0 : NoDup (seen ++ [i])) by (apply NoDup_app_single; auto).
  assert (LB : length (seen ++ [i]) <= length h).
  { apply NoDup_bound; auto. intros x Hx. apply in_app_iff in Hx. destruct Hx as [Hx|[<-|[]]]; auto. }
  rewrite app_length in LB. simpl in LB.
  assert (L : forall ss h1 seen1,
    (forall s, In s ss -> In s (map snd (nd_setters n))) ->
    length h1 = length h -> closed h1 -> NoDup seen1 ->
    length seen + 1 <= length seen1 -> (forall x, In x seen1 -> x < length h) ->
    exists r, fold_res (fun hs s =>
                   match st_dep s with
                   | Some j => if j =? i then Ok hs else positions f (fst hs) (snd hs) j
                   | None => Ok hs
                   end) (h1, seen1) ss = Ok r).
  { induction ss as [|s ss IHs]; intros h1 seen1 HS HL HC1 ND1 HL1 HB1; cbn [fold_res]; [eauto|].
    destruct (st_dep s) as [j|] eqn:ED; [|apply IHs; auto; intros; apply HS; now right].
    destruct (j =? i) eqn:EJ; [apply IHs; auto; intros; apply HS; now right|]. cbn [fst snd].
    assert (IJ : In j (ndeps h i)).
    { unfold ndeps. rewrite EN. unfold sdeps. apply in_flat_map. exists s.
      split; [apply HS; now left|]. rewrite ED, EJ. now left. }
    destruct (IH h1 seen1 j) as [[h3 seen3] EP]; auto; try lia.
    { apply HC in IJ. lia. }
    { rewrite HL. auto. }
    rewrite EP. destruct (positions_spec f h1 seen1 j h3 seen3 ND1 EP) as (newj & P1 & P2 & P3 & P4 & P5 & P6 & _).
    apply IHs; auto.
    - intros; apply HS; now right.
    - rewrite (numbered_length _ _ _ _ P4). auto.
    - intros a b Hb. rewrite (numbered_length _ _ _ _ P4).
      rewrite (numbered_deps _ _ _ _ a P4) in Hb. eapply HC1; eauto.
    - rewrite P1, app_length. lia.
    - intros x Hx. rewrite P1 in Hx. apply in_app_iff in Hx. destruct Hx as [Hx|Hx]; auto.
      apply P5 in Hx. lia. }
  apply L; auto.
  - apply (numbered_length _ _ _ _ N0).
  - intros a b Hb. rewrite (numbered_length _ _ _ _ N0). rewrite (numbered_deps _ _ _ _ a N0) in Hb. eauto.
  - rewrite app_length. simpl. lia.
  - intros x Hx. apply in_app_iff in Hx. destruct Hx as [Hx|[<-|[]]]; auto.
Qed.

(** The call on the root with nothing seen. *)
Lemma positions_root : forall fuel h i h' seen, positions fuel h [] i = Ok (h', seen) ->
  NoDup seen /\ (forall k, In k seen <-> reach h i k) /\ numbered h h' 0 seen /\ hd_error seen = Some i.
Proof.
  intros fuel h i h' seen H.
  destruct (positions_spec fuel h [] i h' seen (NoDup_nil _) H) as (new & E & ND & HI & HN & HR & HC & HD).
  simpl in E. subst new. split; auto. split; [|split; auto].
  - intros k. split; [intros Hk; apply HR; auto|]. intros Hk.
    assert (G : forall a b, clos_refl_trans_1n nat (fun i j => In j (ndeps h i)) a b -> In a seen -> In b seen).
    { intros a b Hab. induction Hab; auto. intros Ha. apply IHHab. eauto. }
    eapply G; [|exact HI]. apply clos_rt_rt1n. exact Hk.
  - destruct HD as [rest ->]; auto.
Qed.
End P.
