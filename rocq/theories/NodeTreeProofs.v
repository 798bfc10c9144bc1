(** Lemmas about [build_pytree] (base_models.py 717-759). *)
From Coq Require Import String Ascii List Bool Arith ZArith Lia Relations.
From Verif Require Import Base BaseFacts Numerals GraphStateModel NodeGraphModel NodeGraphProofs.
Import ListNotations.
Open Scope string_scope.
Open Scope list_scope.
Open Scope nat_scope.

Section P.
Context {A : Type}.
Notation node := (node A).
Notation nheap := (nheap A).
Notation setter := (setter A).
Notation tree := (dict (dict (value A))).

(** A parameter of [i] that is not gradient-enabled refers to [j]. *)
Definition tdep (h : nheap) (i j : nat) : Prop :=
  exists n name s, nth_error h i = Some n /\ In (name, s) (nd_setters n) /\ st_grad s = false /\ st_dep s = Some j.
Definition treach (h : nheap) : nat -> nat -> Prop := clos_refl_trans nat (tdep h).

Definition tree_done (h : nheap) (g : gs A) (k : nat) (p : tree) : Prop :=
  exists n d, nth_error h k = Some n /\ nd_pos n <> None /\ dget (nd_str n) p = Some d /\
    (forall name v, dget name d = Some v ->
       exists s, In (name, s) (nd_setters n) /\ st_grad s = true /\ gs_item g (nd_str n) name = Ok v) /\
    (forall name s, In (name, s) (nd_setters n) -> st_grad s = true ->
       exists v, gs_item g (nd_str n) name = Ok v /\ dget name d = Some v).
Definition tvisited (h : nheap) (p : tree) (j : nat) : Prop :=
  exists d, nth_error h j = Some d /\ dmem (nd_str d) p = true.
Definition kept (p p' : tree) : Prop := forall k d, dget k p = Some d -> dget k p' = Some d.

Lemma kept_mem : forall p p' k, kept p p' -> dmem k p = true -> dmem k p' = true.
Proof. intros p p' k K H. unfold dmem in *. destruct (dget k p) eqn:E; [|discriminate]. now rewrite (K _ _ E). Qed.

Lemma tree_spec : forall fuel h g p i p',
  (forall k n, nth_error h k = Some n -> NoDup (dkeys (nd_setters n))) ->
  pytree fuel h g p i = Ok p' ->
  kept p p' /\ tvisited h p' i /\
  (forall s, dmem s p' = true -> dmem s p = true \/
     exists k n, treach h i k /\ nth_error h k = Some n /\ nd_str n = s /\ tree_done h g k p' /\
       forall j, tdep h k j -> tvisited h p' j).
Proof.
  induction fuel as [|f IH]; intros h g p i p' HW H; [discriminate|]. cbn [pytree] in H.
  destruct (nth_error h i) as [n|] eqn:EN; [|discriminate].
  destruct (nd_pos n) as [ps0|] eqn:EP; [|discriminate].
  destruct (dmem (nd_str n) p) eqn:EM.
  { inversion H; subst. sp; auto. - intros k d Hd; auto. - exists n; auto. }
  set (str := nd_str n) in *.
  set (post := fun (pa pb : tree) =>
    (forall k d, k <> str -> dget k pa = Some d -> dget k pb = Some d) /\
    (forall s, dmem s pb = true -> dmem s pa = true \/
     exists k n', treach h i k /\ nth_error h k = Some n' /\ nd_str n' = s /\ s <> str /\ tree_done h g k pb /\
       forall j, tdep h k j -> tvisited h pb j)).
  assert (MONO : forall pa pb s, dmem str pb = true -> post pa pb -> dmem s pa = true -> dmem s pb = true).
  { intros pa pb s HS [P1 _] HM. destruct (string_dec s str) as [->|NE]; auto.
    unfold dmem in *. destruct (dget s pa) eqn:E; [|discriminate]. now rewrite (P1 _ _ NE E). }
  assert (DM : forall pa pb k n', dmem str pb = true -> post pa pb -> nth_error h k = Some n' -> nd_str n' <> str ->
     tree_done h g k pa -> tree_done h g k pb).
  { intros pa pb k n' HS [P1 _] E1 NE (n2 & d & D1 & D2 & D3 & D4 & D5). assert (n2 = n') by congruence. subst.
    exists n', d. sp; auto. }
  assert (PT : forall pa pb pc, dmem str pb = true -> dmem str pc = true -> post pa pb -> post pb pc -> post pa pc).
  { intros pa pb pc HB HC P Q. assert (P' := P). assert (Q' := Q). destruct P as [P1 P2], Q as [Q1 Q2]. split; auto.
    intros s HS. destruct (Q2 s HS) as [R|R]; auto. destruct (P2 s R) as [T|(k & n' & T1 & T2 & T3 & T4 & T5 & T6)]; auto.
    right. exists k, n'. sp; auto.
    - eapply DM; eauto. congruence.
    - intros j Hj. destruct (T6 j Hj) as (d & X1 & X2). exists d. split; auto. eapply MONO; eauto. }
  assert (STEP : forall name s pa pb da, In (name, s) (nd_setters n) -> dget str pa = Some da ->
     tree_param (pytree f h g) g n pa (name, s) = Ok pb ->
     post pa pb /\
     (if st_grad s then exists v, gs_item g str name = Ok v /\ dget str pb = Some (dset name v da)
      else dget str pb = Some da) /\
     (forall j, st_grad s = false -> st_dep s = Some j -> tvisited h pb j)).
  { intros name s pa pb da HI HD HS. unfold tree_param in HS. fold str in HS. destruct (st_grad s) eqn:EG.
    - destruct (gs_item g str name) as [v|] eqn:EI; [|discriminate]. rewrite HD in HS. inversion HS; subst.
      sp.
      + split.
        * intros k d NE Hd. rewrite dget_dset. destruct (String.eqb k str) eqn:E; auto.
          apply String.eqb_eq in E. congruence.
        * intros s' Hs. left. unfold dmem in *. rewrite dget_dset in Hs. destruct (String.eqb s' str) eqn:E; auto.
          apply String.eqb_eq in E; subst. now rewrite HD.
      + exists v. split; auto. rewrite dget_dset, String.eqb_refl. auto.
      + intros; discriminate.
    - destruct (st_dep s) as [j|] eqn:ED.
      + destruct (IH h g pa j pb HW HS) as (Q1 & Q2 & Q3).
        sp; auto.
        * split; [intros; auto|]. intros s' Hs. destruct (Q3 _ Hs) as [|(k & n' & T1 & T2 & T3 & T4 & T5)]; auto.
          destruct (string_dec s' str) as [->|NE]; [left; unfold dmem; now rewrite HD|].
          right. exists k, n'. sp; auto. eapply rt_trans; [apply rt_step|exact T1].
          exists n, name, s. auto.
        * intros j' _ Hj. inversion Hj; subst. auto.
      + inversion HS; subst. sp; auto; [|discriminate]. split; auto. }
  assert (L : forall ps pa pb da, (forall q, In q ps -> In q (nd_setters n)) -> NoDup (dkeys ps) ->
     dget str pa = Some da ->
     fold_res (tree_param (pytree f h g) g n) pa ps = Ok pb ->
     exists db, post pa pb /\ dget str pb = Some db /\
       (forall name, match dget name ps with
          | Some s => if st_grad s then exists v, gs_item g str name = Ok v /\ dget name db = Some v
                      else dget name db = dget name da
          | None => dget name db = dget name da end) /\
       (forall q j, In q ps -> st_grad (snd q) = false -> st_dep (snd q) = Some j -> tvisited h pb j)).
  { induction ps as [|[name s] ps IHp]; intros pa pb da HP ND HD HF; cbn [fold_res] in HF.
    - inversion HF; subst. exists da. split; [split; auto|]. split; [auto|]. split; [simpl; auto|simpl; tauto].
    - destruct (tree_param (pytree f h g) g n pa (name, s)) as [pc|] eqn:EPc; [|discriminate].
      destruct (STEP name s pa pc da (HP _ (or_introl eq_refl)) HD EPc) as (P1 & P2 & P3).
      simpl in ND. inversion ND as [|x y NI ND']; subst.
      assert (exists dc, dget str pc = Some dc /\ dc = if st_grad s then match gs_item g str name with Ok v => dset name v da | Err _ => da end else da).
      { destruct (st_grad s); [destruct P2 as (v & V1 & V2); rewrite V1|]; eauto. }
      destruct H0 as (dc & HC & EC).
      destruct (IHp pc pb dc ltac:(intros; apply HP; now right) ND' HC HF) as (db & Q1 & Q2 & Q3 & Q4).
      assert (MC : dmem str pc = true) by (unfold dmem; now rewrite HC).
      assert (MB : dmem str pb = true) by (unfold dmem; now rewrite Q2).
      exists db. sp; auto.
      + eapply PT; [exact MC|exact MB|exact P1|exact Q1].
      + intros nm. simpl. destruct (String.eqb nm name) eqn:E.
        * apply String.eqb_eq in E; subst nm. specialize (Q3 name).
          assert (EX : dget name ps = None) by now apply dget_None. rewrite EX in Q3.
          destruct (st_grad s).
          -- destruct P2 as (v & V1 & V2). exists v. split; auto. rewrite Q3, EC, V1, dget_dset, String.eqb_refl. auto.
          -- rewrite Q3, EC. auto.
        * assert (KD : dget nm dc = dget nm da).
          { rewrite EC. destruct (st_grad s); auto. destruct (gs_item g str name); auto. rewrite dget_dset, E. auto. }
          specialize (Q3 nm). destruct (dget nm ps) as [s2|]; [destruct (st_grad s2)|]; auto; congruence.
      + intros q j [<-|Hq] HG HDj; [|eauto]. simpl in HG, HDj.
        destruct (P3 j HG HDj) as (d & X1 & X2). exists d. split; auto. eapply MONO; [exact MB|exact Q1|exact X2]. }
  assert (HD0 : dget str (dset str [] p) = Some []) by (rewrite dget_dset, String.eqb_refl; auto).
  destruct (L (nd_setters n) (dset str [] p) p' [] ltac:(auto) (HW _ _ EN) HD0 H) as (db & Q1 & Q2 & Q3 & Q4).
  assert (MB : dmem str p' = true) by (unfold dmem; now rewrite Q2).
  assert (NS : dget str p = None) by (unfold dmem in EM; destruct (dget str p); congruence).
  destruct Q1 as [Q1a Q1b]. sp.
  - intros k d Hd. assert (k <> str) by congruence. apply Q1a; auto. rewrite dget_dset.
    destruct (String.eqb k str) eqn:E; auto. apply String.eqb_eq in E. congruence.
  - exists n. auto.
  - intros s Hs. destruct (Q1b s Hs) as [R|(k & n' & T1 & T2 & T3 & T4 & T5 & T6)].
    + unfold dmem in R. rewrite dget_dset in R. destruct (String.eqb s str) eqn:E; [|auto].
      apply String.eqb_eq in E; subst s. right. exists i, n. sp; auto; [apply rt_refl| |].
      * exists n, db. sp; auto; [congruence| |].
        -- intros name v Hv. specialize (Q3 name). destruct (dget name (nd_setters n)) as [s|] eqn:ES.
           ++ destruct (st_grad s) eqn:EG; [|simpl in Q3; congruence]. destruct Q3 as (v' & V1 & V2).
              exists s. sp; auto; [now apply dget_In|fold str; congruence].
           ++ simpl in Q3. congruence.
        -- intros name s HI HG. specialize (Q3 name). rewrite (In_dget _ _ _ _ (HW _ _ EN) HI), HG in Q3. exact Q3.
      * intros j (n2 & nm & s & X1 & X2 & X3 & X4). assert (n2 = n) by congruence. subst.
        apply (Q4 (nm, s) j); auto.
    + right. exists k, n'. sp; auto.
Qed.
End P.
