(** Lemmas about shared passbands ([PassbandShareModel.v]): the heap of passbands against the value model. *)
From Coq Require Import Reals String List Bool Arith Lia.
From Verif Require Import Base BaseFacts RealBase PassbandModel PassbandProofs PassbandProps PassbandGroupProps PassbandFileProofs
  PassbandShareModel.
Import ListNotations.
Open Scope nat_scope.
Open Scope list_scope.

Lemma put_length : forall A (l : list A) i x, length (put i x l) = length l.
Proof. induction l as [|y l IH]; intros [|i] x; simpl; auto. Qed.
Lemma put_same : forall A (l : list A) i x, i < length l -> nth_error (put i x l) i = Some x.
Proof. induction l as [|y l IH]; intros [|i] x H; simpl in *; try lia; auto. apply IH. lia. Qed.
Lemma put_other : forall A (l : list A) i j x, i <> j -> nth_error (put i x l) j = nth_error l j.
Proof. induction l as [|y l IH]; intros [|i] [|j] x H; simpl; auto; try lia. Qed.
Lemma put_In : forall A (l : list A) i x y, In y (put i x l) -> y = x \/ In y l.
Proof. induction l as [|z l IH]; intros [|i] x y H; simpl in *; auto; destruct H as [<-|H]; auto. destruct (IH _ _ _ H); auto. Qed.
Lemma nth_lt : forall A (l : list A) i x, nth_error l i = Some x -> i < length l.
Proof. intros A l i x H. apply nth_error_Some. congruence. Qed.

(** The references of a group are good: every one leads to a passband of that full name. *)
Definition good_refs (h : list passband) (refs : dict nat) : Prop :=
  NoDup (dkeys refs) /\ forall k a, In (k, a) refs -> exists p, nth_error h a = Some p /\ pb_full p = k.
Definition wf (w : world) : Prop :=
  Forall built_band (objs w) /\ forall i g, nth_error (grps w) i = Some g -> good_refs (objs w) (gr_refs g).

Lemma good_tail : forall h k a r, good_refs h ((k, a) :: r) -> good_refs h r.
Proof. intros h k a r [N H]. split; [now inversion N|]. intros k' a' I. apply H. now right. Qed.
Lemma good_addr : forall h refs, good_refs h refs -> NoDup (map snd refs).
Proof.
  induction refs as [|[k a] r IH]; intros G; simpl; constructor.
  - intros I. apply in_map_iff in I. destruct I as ([k' a'] & E & I). simpl in E. subst a'. destruct G as [N H].
    destruct (H k a (or_introl eq_refl)) as (p & E1 & E2). destruct (H k' a (or_intror I)) as (p' & E1' & E2').
    assert (KK : k' = k) by congruence. rewrite KK in I. simpl in N. apply NoDup_cons_iff in N. apply (proj1 N). apply in_map_iff. exists (k, a). split; [reflexivity|exact I].
  - apply IH. eapply good_tail; eauto.
Qed.
Lemma deref_keys : forall h refs, good_refs h refs -> dkeys (deref h refs) = dkeys refs.
Proof.
  induction refs as [|[k a] r IH]; intros G; simpl; auto. destruct (proj2 G k a (or_introl eq_refl)) as (p & -> & _). simpl. f_equal.
  apply IH. eapply good_tail; eauto.
Qed.
Lemma deref_In : forall h refs k p, In (k, p) (deref h refs) <-> exists a, In (k, a) refs /\ nth_error h a = Some p.
Proof.
  induction refs as [|[k' a'] r IH]; intros k p; simpl.
  - split; [tauto|]. intros (a & [] & _).
  - destruct (nth_error h a') as [p'|] eqn:E; simpl; rewrite IH; split.
    + intros [H|(a & I & H)]; [injection H as <- <-; exists a'; auto|exists a; auto].
    + intros (a & [H|I] & H'); [injection H as <- <-; left; congruence|right; exists a; auto].
    + intros (a & I & H). exists a. auto.
    + intros (a & [H|I] & H'); [injection H as <- <-; congruence|exists a; auto].
Qed.
Lemma deref_ext : forall h h' refs, (forall k a, In (k, a) refs -> nth_error h' a = nth_error h a) -> deref h' refs = deref h refs.
Proof.
  induction refs as [|[k a] r IH]; intros H; simpl; auto. rewrite (H k a (or_introl eq_refl)), IH; [reflexivity|].
  intros k' a' I. apply (H k' a'). now right.
Qed.
Lemma deref_app : forall h a b, deref h (a ++ b) = deref h a ++ deref h b.
Proof. induction a as [|[k i] a IH]; intros b; simpl; auto. destruct (nth_error h i); rewrite IH; auto. Qed.
Lemma deref_keyed : forall h refs, good_refs h refs -> keyed (deref h refs).
Proof.
  intros h refs G. split; [rewrite deref_keys; auto; apply G|]. apply Forall_forall. intros [k p] I. apply deref_In in I.
  destruct I as (a & I & E). destruct (proj2 G k a I) as (p' & E' & <-). simpl. congruence.
Qed.
Lemma deref_built : forall h refs, Forall built_band h -> Forall (fun fb => built_band (snd fb)) (deref h refs).
Proof.
  intros h refs B. apply Forall_forall. intros [k p] I. apply deref_In in I. destruct I as (a & _ & E). simpl.
  rewrite Forall_forall in B. apply B. eapply nth_error_In; eauto.
Qed.
Lemma built_update : forall b, Forall (fun fb => built_band (snd fb)) b -> exists v, pg_update b = Ok v.
Proof. intros b H. apply update_ok. eapply Forall_impl; [|exact H]. intros [k p]. simpl. apply built_good. Qed.
Lemma built_process_band : forall p d q p', built_band p -> pb_process p d q = Ok p' -> built_band p'.
Proof.
  intros p d q p' (t & s & f & d0 & q0 & u & H) P. exists t, s, f, d, q, u. unfold pb_make in *.
  destruct (validate t u) as [t0|]; [|discriminate]. cbn [bind] in *. destruct (process_table t0 d0 q0) as [t1|]; [|discriminate].
  cbn [bind] in H. injection H as <-. unfold pb_process in P. cbn [pb_loaded pb_survey pb_filter] in P. exact P.
Qed.
Lemma process_full : forall p d q p', pb_process p d q = Ok p' -> pb_full p' = pb_full p /\ pb_survey p' = pb_survey p /\
  pb_filter p' = pb_filter p /\ pb_loaded p' = pb_loaded p.
Proof. intros p d q p' P. unfold pb_process in P. destruct (process_table _ d q); [|discriminate]. injection P as <-. auto. Qed.

(** ** The loop of [process_transmission_tables] *)
Definition processed (d q : option R) (b b' : dict passband) : Prop :=
  Forall2 (fun fb fb' => fst fb = fst fb' /\ pb_process (snd fb) d q = Ok (snd fb')) b b'.
Definition fold_process (d q : option R) (b : dict passband) : result (dict passband) :=
  fold_res (fun acc fb => bind (pb_process (snd fb) d q) (fun p => Ok (acc ++ [(fst fb, p)]))) [] b.
Lemma fold_processed : forall d q b acc b2, processed d q b b2 ->
  fold_res (fun acc fb => bind (pb_process (snd fb) d q) (fun p => Ok (acc ++ [(fst fb, p)]))) acc b = Ok (acc ++ b2).
Proof.
  induction b as [|[k p] b IH]; intros acc b2 F; inversion F; subst; simpl; [now rewrite app_nil_r|].
  destruct H1 as [E P]. destruct y as [k' p']. simpl in *. subst k'. rewrite P. cbn [bind]. rewrite (IH _ _ H3), <- app_assoc. reflexivity.
Qed.
Lemma fold_process_err : forall d q b1 b1' k p b2 e acc, processed d q b1 b1' -> pb_process p d q = Err e ->
  fold_res (fun acc fb => bind (pb_process (snd fb) d q) (fun p => Ok (acc ++ [(fst fb, p)]))) acc (b1 ++ (k, p) :: b2) = Err e.
Proof.
  induction b1 as [|[k0 p0] b1 IH]; intros b1' k p b2 e acc F P; inversion F; subst; simpl.
  - now rewrite P.
  - destruct H1 as [E P']. destruct y as [k' p']. simpl in *. rewrite P'. cbn [bind]. eapply IH; eauto.
Qed.
Lemma processed_ext : forall d q b b' c, processed d q b b' -> processed d q b c -> b' = c.
Proof.
  induction b as [|[k p] b IH]; intros b' c F F'; inversion F as [|x y l l' P1 P2]; subst; inversion F' as [|x' y' m m' P1' P2']; subst; auto.
  destruct P1, P1', y as [y1 y2], y' as [z1 z2]; simpl in *. f_equal; [f_equal; congruence|eauto].
Qed.
Lemma process_refs_spec : forall d q refs h, good_refs h refs -> Forall built_band h ->
  let '(h', oe) := process_refs h refs d q in
  length h' = length h /\ Forall built_band h' /\
  (forall a p', nth_error h' a = Some p' -> exists p, nth_error h a = Some p /\ pb_full p' = pb_full p /\ pb_survey p' = pb_survey p /\
     pb_filter p' = pb_filter p /\ pb_loaded p' = pb_loaded p) /\
  (forall a, ~ In a (map snd refs) -> nth_error h' a = nth_error h a) /\
  match oe with
  | None => processed d q (deref h refs) (deref h' refs)
  | Some e => exists r1 k a r2 p, refs = r1 ++ (k, a) :: r2 /\ nth_error h a = Some p /\ pb_process p d q = Err e /\
      processed d q (deref h r1) (deref h' r1) /\ (forall k' a', In (k', a') ((k, a) :: r2) -> nth_error h' a' = nth_error h a')
  end.
Proof.
  induction refs as [|[k a] r IH]; intros h G B; cbn [process_refs].
  - split; [reflexivity|]. split; [exact B|]. split; [intros b p' E; exists p'; auto|]. split; [auto|constructor].
  - destruct (proj2 G k a (or_introl eq_refl)) as (p & E & EF). rewrite E. pose proof (nth_lt _ _ _ _ E) as L.
    pose proof (good_addr _ _ G) as NA. simpl in NA. apply NoDup_cons_iff in NA. destruct NA as [NI _].
    destruct (pb_process p d q) as [p1|e] eqn:P.
    + destruct (process_full _ _ _ _ P) as (F1 & F2 & F3 & F4).
      assert (G1 : good_refs (put a p1 h) r).
      { split; [exact (proj1 (good_tail _ _ _ _ G))|]. intros k' a' I. rewrite put_other.
        - apply (proj2 G). now right.
        - intros <-. apply NI. apply in_map_iff. exists (k', a). auto. }
      assert (B1 : Forall built_band (put a p1 h)).
      { apply Forall_forall. intros x I. rewrite Forall_forall in B. apply put_In in I. destruct I as [->|I]; [|auto].
        eapply built_process_band; [|exact P]. apply B. eapply nth_error_In; eauto. }
      specialize (IH _ G1 B1). destruct (process_refs (put a p1 h) r d q) as [h' oe]. rewrite put_length in IH.
      destruct IH as (I1 & I2 & I3 & I4 & I5). split; [exact I1|]. split; [exact I2|]. split.
      { intros b p' E'. destruct (I3 b p' E') as (p2 & E2 & Q1 & Q2 & Q3 & Q4). destruct (Nat.eq_dec a b) as [<-|N].
        - rewrite put_same in E2 by auto. injection E2 as <-. exists p. repeat split; congruence.
        - rewrite put_other in E2 by auto. exists p2. auto. }
      split.
      { intros b N. simpl in N. rewrite I4 by tauto. apply put_other. tauto. }
      assert (EA : nth_error h' a = Some p1) by (rewrite I4 by auto; now apply put_same).
      assert (ER : forall r', (forall k' a', In (k', a') r' -> In (k', a') r) -> deref (put a p1 h) r' = deref h r').
      { intros r' S. apply deref_ext. intros k' a' I. apply put_other. intros <-. apply NI. apply in_map_iff. exists (k', a). auto. }
      destruct oe as [e|].
      * destruct I5 as (r1 & k1 & a1 & r2 & p2 & -> & Q1 & Q2 & Q3 & Q4). exists ((k, a) :: r1), k1, a1, r2, p2.
        assert (N1 : a <> a1). { intros <-. apply NI. apply in_map_iff. exists (k1, a). split; auto. apply in_or_app. right. now left. }
        rewrite put_other in Q1 by auto. split; [reflexivity|]. split; [exact Q1|]. split; [exact Q2|]. split.
        -- cbn [deref]. rewrite E, EA. constructor; [simpl; auto|]. rewrite <- ER; auto. intros k' a' I. apply in_or_app. auto.
        -- intros k' a' I. rewrite (Q4 _ _ I). apply put_other. intros <-. apply NI. apply in_map_iff. exists (k', a). split; auto.
           apply in_or_app. right. exact I.
      * cbn [deref]. rewrite E, EA. constructor; [simpl; auto|]. rewrite <- ER; auto.
    + split; [reflexivity|]. split; [exact B|]. split; [intros b p' E'; exists p'; auto|]. split; [auto|].
      exists [], k, a, r, p. split; [reflexivity|]. split; [exact E|]. split; [exact P|]. split; [constructor|auto].
Qed.

(** ** Construction *)
Lemma dset_deref : forall h refs k a p, good_refs h refs -> nth_error h a = Some p -> deref h (dset k a refs) = dset k p (deref h refs).
Proof.
  induction refs as [|[k' a'] r IH]; intros k a p G E; simpl; [now rewrite E|].
  destruct (proj2 G k' a' (or_introl eq_refl)) as (p' & E' & _). rewrite E'. simpl. destruct (String.eqb k k').
  - simpl. now rewrite E.
  - simpl. rewrite E'. f_equal. apply IH; auto. eapply good_tail; eauto.
Qed.
Lemma dset_In : forall V k (v : V) d k' v', In (k', v') (dset k v d) -> (k' = k /\ v' = v) \/ In (k', v') d.
Proof.
  induction d as [|[k0 v0] d IH]; intros k' v' I; simpl in I.
  - destruct I as [H|[]]. injection H as <- <-. auto.
  - destruct (String.eqb k k0) eqn:E.
    + apply String.eqb_eq in E. subst k0. destruct I as [H|I]; [injection H as <- <-; auto|right; now right].
    + destruct I as [H|I]; [right; now left|]. destruct (IH _ _ I); auto. right. now right.
Qed.
Lemma good_dset : forall h refs a p, good_refs h refs -> nth_error h a = Some p -> good_refs h (dset (pb_full p) a refs).
Proof.
  intros h refs a p [N H] E. split; [now apply NoDup_dset|]. intros k b I. apply dset_In in I. destruct I as [[-> ->]|I]; auto.
  exists p. auto.
Qed.
Lemma collect_refs_spec : forall h l acc bands, good_refs h acc -> deref h acc = bands ->
  forall ps, Forall2 (fun a p => nth_error h a = Some p) l ps ->
  let r := fold_left (fun acc a => match nth_error h a with Some p => dset (pb_full p) a acc | None => acc end) l acc in
  good_refs h r /\ deref h r = fold_left (fun acc p => dset (pb_full p) p acc) ps bands.
Proof.
  induction l as [|a l IH]; intros acc bands G D ps F; inversion F; subst; cbn [fold_left]; [auto|]. rewrite H1.
  apply IH; auto; [now apply good_dset|now apply dset_deref].
Qed.
Definition keep_ref (h : list passband) (fs : list string) (st : dict nat * list string) (ka : string * nat) : dict nat * list string :=
  let '(kept, remaining) := st in
  match nth_error h (snd ka) with
  | None => st
  | Some p =>
      if smem (fst ka) fs then (kept ++ [ka], filter (fun x => negb (String.eqb x (fst ka))) remaining)
      else if smem (pb_filter p) fs
           then (kept ++ [ka], filter (fun x => negb (String.eqb x (pb_filter p))) remaining)
           else (kept, remaining)
  end.
Definition keep_band (fs : list string) (st : dict passband * list string) (fb : string * passband) : dict passband * list string :=
  let '(kept, remaining) := st in
  if smem (fst fb) fs then (kept ++ [fb], filter (fun x => negb (String.eqb x (fst fb))) remaining)
  else if smem (pb_filter (snd fb)) fs
       then (kept ++ [fb], filter (fun x => negb (String.eqb x (pb_filter (snd fb)))) remaining)
       else (kept, remaining).
Lemma prune_refs_fold : forall h refs fs, prune_refs h refs fs = fold_left (keep_ref h fs) refs ([], fs).
Proof. reflexivity. Qed.
Lemma prune_fold : forall b fs, prune b fs = fold_left (keep_band fs) b ([], fs).
Proof. reflexivity. Qed.
Lemma prune_refs_spec : forall h fs refs, good_refs h refs -> forall kept rem,
  let A := fold_left (keep_ref h fs) refs (kept, rem) in
  let B := fold_left (keep_band fs) (deref h refs) (deref h kept, rem) in
  snd A = snd B /\ deref h (fst A) = fst B /\ exists sub, fst A = kept ++ sub /\ good_refs h sub /\ (forall ka, In ka sub -> In ka refs).
Proof.
  intros h fs. induction refs as [|[k a] r IH]; intros G kept rem.
  - cbn. split; [reflexivity|]. split; [reflexivity|]. exists []. rewrite app_nil_r. split; [reflexivity|]. split; [exact G|auto].
  - destruct (proj2 G k a (or_introl eq_refl)) as (p & E & EF). pose proof (good_tail _ _ _ _ G) as GT.
    cbn [deref]. rewrite E. cbn [fold_left].
    assert (KEEP : forall rem', let A := fold_left (keep_ref h fs) r (kept ++ [(k, a)], rem') in
       let B := fold_left (keep_band fs) (deref h r) (deref h kept ++ [(k, p)], rem') in
       snd A = snd B /\ deref h (fst A) = fst B /\ exists sub, fst A = kept ++ sub /\ good_refs h sub /\ (forall ka, In ka sub -> In ka ((k, a) :: r))).
    { intros rem'. specialize (IH GT (kept ++ [(k, a)]) rem'). cbv zeta in IH |- *. rewrite deref_app in IH. cbn [deref] in IH. rewrite E in IH.
      destruct IH as (I1 & I2 & sub & I3 & S1 & S2). split; [exact I1|]. split; [exact I2|]. exists ((k, a) :: sub).
      split; [etransitivity; [exact I3|now rewrite <- app_assoc]|]. split.
      - split.
        + simpl. constructor; [|apply S1]. intros I. destruct G as [ND _]. simpl in ND. apply NoDup_cons_iff in ND. apply (proj1 ND).
          unfold dkeys in *. apply in_map_iff in I. destruct I as (x & Ex & I). apply in_map_iff. exists x. auto.
        + intros k' a' [H|I]; [injection H as <- <-; eauto|]. now apply S1.
      - intros ka [<-|I]; [now left|right; auto]. }
    cbv zeta in KEEP |- *. unfold keep_ref at 2 4 6. unfold keep_band at 2 4. cbn [fst snd]. rewrite E.
    destruct (smem k fs); [apply KEEP|]. destruct (smem (pb_filter p) fs); [apply KEEP|].
    specialize (IH GT kept rem). cbv zeta in IH. destruct IH as (I1 & I2 & sub & I3 & S1 & S2).
    split; [exact I1|]. split; [exact I2|]. exists sub. split; [exact I3|]. split; [exact S1|].
    intros ka I. right. auto.
Qed.
