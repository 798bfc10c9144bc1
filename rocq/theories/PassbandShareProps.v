(** Property C121: passbands are shared, mutable objects; what processing one group, or failing halfway, does to
    the groups that hold the same passbands. *)
From Coq Require Import Reals String List Bool Arith Lia Lra ZArith.
From Verif Require Import Base BaseFacts RealBase PassbandModel PassbandProofs PassbandProps PassbandGroupProps PassbandFileProofs
  PassbandShareModel PassbandShareProofs.
Import ListNotations.
Open Scope nat_scope.
Open Scope list_scope.

(** ** Specification *)
(** The worlds a program can reach, whatever it catches. *)
Definition reachable (w : world) : Prop := exists l, w = run (mkWorld [] []) l.
(** Group [i] holds passband [a]. *)
Definition has (w : world) (i a : nat) : Prop := exists g k, nth_error (grps w) i = Some g /\ In (k, a) (gr_refs g).
(** A group answers as one newly built from the passbands it holds. *)
Definition as_new (v : pgroup) : Prop := v = mkPG [] [] [] [] \/ pg_make (members v) None = Ok v.
(** Group [i] exists and answers so. *)
Definition fresh (w : world) (i : nat) : Prop := exists v, view w i = Some v /\ as_new v.
(** The operation processes a passband that group [i] holds. *)
Definition touches (w : world) (o : op) (i : nat) : Prop :=
  match o with
  | ProcessGroup j _ _ => exists a, has w j a /\ has w i a
  | ProcessBand a _ _ => has w i a
  | _ => False
  end.
(** The operation updates the cached data of group [i]. *)
Definition updates (o : op) (i : nat) : Prop :=
  match o with AddBand j _ => j = i | ProcessGroup j _ _ => j = i | _ => False end.
Definition processing (o : op) : Prop := match o with ProcessGroup _ _ _ | ProcessBand _ _ _ => True | _ => False end.

(** ** Invariant *)
Lemma refresh_total : forall h g, Forall built_band h -> exists v, pg_update (deref h (gr_refs g)) = Ok v /\
  refresh h g = (mkGroup (gr_refs g) (pg_waves v) (pg_index v) (pg_names v), None) /\
  look h (fst (refresh h g)) = v.
Proof.
  intros h g B. destruct (built_update (deref h (gr_refs g))) as (v & U); [now apply deref_built|]. exists v. split; [exact U|].
  unfold refresh. rewrite U. split; [reflexivity|]. cbn [fst]. unfold look. cbn [gr_refs gr_waves gr_index gr_names].
  destruct (update_inv _ _ U) as (<- & _). destruct v; reflexivity.
Qed.
Lemma good_refs_same : forall h h' refs, good_refs h refs ->
  (forall a p, nth_error h a = Some p -> exists p', nth_error h' a = Some p' /\ pb_full p' = pb_full p) -> good_refs h' refs.
Proof.
  intros h h' refs [N H] S. split; [exact N|]. intros k a I. destruct (H k a I) as (p & E & <-). destruct (S a p E) as (p' & E' & F).
  exists p'. auto.
Qed.
Lemma nth_snoc : forall A (l : list A) x i y, nth_error (l ++ [x]) i = Some y -> nth_error l i = Some y \/ (i = length l /\ y = x).
Proof.
  intros A l x i y H. destruct (Nat.lt_ge_cases i (length l)) as [L|L].
  - rewrite nth_error_app1 in H by auto. auto.
  - rewrite nth_error_app2 in H by auto. destruct (i - length l) as [|n] eqn:E; simpl in H; [|destruct n; discriminate].
    injection H as <-. right. split; [lia|auto].
Qed.
Lemma put_nth : forall A (l : list A) i x j y, nth_error (put i x l) j = Some y -> (j = i /\ y = x) \/ (j <> i /\ nth_error l j = Some y).
Proof.
  intros A l i x j y H. destruct (Nat.eq_dec i j) as [->|N].
  - left. split; auto. pose proof (nth_lt _ _ _ _ H) as L. rewrite put_length in L. rewrite put_same in H by auto. congruence.
  - right. rewrite put_other in H by auto. auto.
Qed.
(** What a processing run leaves at every address. *)
Lemma kept_objects : forall d q refs h, good_refs h refs -> Forall built_band h ->
  forall a p, nth_error h a = Some p -> exists p', nth_error (fst (process_refs h refs d q)) a = Some p' /\ pb_full p' = pb_full p /\
    pb_survey p' = pb_survey p /\ pb_filter p' = pb_filter p /\ pb_loaded p' = pb_loaded p.
Proof.
  intros d q refs h G B a p E. pose proof (process_refs_spec d q refs h G B) as S. destruct (process_refs h refs d q) as [h' oe].
  destruct S as (L & _ & K & _). cbn [fst]. destruct (nth_error h' a) as [p'|] eqn:E'.
  - destruct (K a p' E') as (p0 & E0 & H). exists p'. assert (p0 = p) by congruence. subst p0. tauto.
  - apply nth_error_None in E'. apply nth_lt in E. lia.
Qed.

(** ** Building groups *)
Lemma good_nil : forall h, good_refs h [].
Proof. intros h. split; [constructor|]. intros k a []. Qed.
Lemma all_allocated : forall (h : list passband) l, forallb (fun a => a <? length h) l = true <-> exists ps, Forall2 (fun a p => nth_error h a = Some p) l ps.
Proof.
  induction l as [|a l IH]; simpl.
  - split; auto. intros _. exists []. constructor.
  - rewrite andb_true_iff, IH, Nat.ltb_lt. split.
    + intros [L (ps & F)]. apply nth_error_Some in L. destruct (nth_error h a) as [p|] eqn:E; [|congruence]. exists (p :: ps). now constructor.
    + intros (ps & F). inversion F; subst. split; [eapply nth_lt; eauto|eauto].
Qed.
Lemma group_spec : forall w l fs ps, Forall built_band (objs w) -> Forall2 (fun a p => nth_error (objs w) a = Some p) l ps ->
  match pg_make ps fs with
  | Ok v => exists g, step w (NewGroup l fs) = (mkWorld (objs w) (grps w ++ [g]), None) /\ look (objs w) g = v /\ good_refs (objs w) (gr_refs g)
  | Err e => step w (NewGroup l fs) = (w, Some e)
  end.
Proof.
  intros w l fs ps B F. cbn [step]. destruct F as [|a p l ps E F]; [reflexivity|]. cbn [pg_make].
  assert (A : forallb (fun a => a <? length (objs w)) (a :: l) = true) by (apply all_allocated; exists (p :: ps); now constructor).
  rewrite A. destruct (collect_refs_spec (objs w) (a :: l) [] [] (good_nil _) eq_refl (p :: ps)) as [G D].
  { now constructor. }
  fold (collect_refs (objs w) (a :: l)) in G, D. fold (collect (p :: ps)) in D.
  assert (GO : forall refs, good_refs (objs w) refs -> match pg_update (deref (objs w) refs) with
     | Ok v => exists g, match refresh (objs w) (mkGroup refs [] [] []) with
                 | (g, None) => (mkWorld (objs w) (grps w ++ [g]), None)
                 | (_, Some e) => (w, Some e)
                 end = (mkWorld (objs w) (grps w ++ [g]), None) /\ look (objs w) g = v /\ good_refs (objs w) (gr_refs g)
     | Err e => match refresh (objs w) (mkGroup refs [] [] []) with
                 | (g, None) => (mkWorld (objs w) (grps w ++ [g]), None)
                 | (_, Some e) => (w, Some e)
                 end = (w, Some e) end).
  { intros refs GR. destruct (refresh_total (objs w) (mkGroup refs [] [] []) B) as (v & U & R & L). cbn [gr_refs] in U, R.
    rewrite U, R. rewrite R in L. cbn [fst] in L. eexists. split; [reflexivity|]. split; [exact L|exact GR]. }
  destruct fs as [fs|].
  - pose proof (prune_refs_spec (objs w) fs (collect_refs (objs w) (a :: l)) G [] fs) as P. cbv zeta in P.
    rewrite <- prune_refs_fold in P. change (deref (objs w) []) with (@nil (string * passband)) in P. rewrite <- prune_fold, D in P.
    destruct (prune_refs (objs w) (collect_refs (objs w) (a :: l)) fs) as [kr rr]. destruct (prune (collect (p :: ps)) fs) as [kb rb].
    cbn [fst snd] in P. destruct P as (-> & D' & sub & K & GS & _). cbn [app] in K. subst kr.
    destruct (negb (length rb =? 0)); [reflexivity|]. rewrite <- D'. now apply GO.
  - rewrite <- D. cbn [length Nat.eqb negb]. now apply GO.
Qed.

Lemma wf_step : forall w o, wf w -> wf (after w o).
Proof.
  intros w o [B G]. unfold after. destruct o as [t s f d q u|l fs|i a|i d q|a d q].
  - cbn [step]. destruct (pb_make t s f d q u) as [p|e] eqn:E; [|split; auto]. cbn [fst]. split; cbn [objs grps].
    + apply Forall_app. split; auto. constructor; [|constructor]. exists t, s, f, d, q, u. exact E.
    + intros i g H. eapply good_refs_same; [apply (G i g H)|]. intros a x Ex. exists x. split; auto. rewrite nth_error_app1; auto. eapply nth_lt; eauto.
  - destruct (forallb (fun a => a <? length (objs w)) l) eqn:A.
    + apply all_allocated in A. destruct A as (ps & F). pose proof (group_spec w l fs ps B F) as S. destruct (pg_make ps fs) as [v|e].
      * destruct S as (g & -> & _ & GR). cbn [fst]. split; auto. cbn [objs grps]. intros i g' H. apply nth_snoc in H. destruct H as [H|[_ ->]]; eauto.
      * rewrite S. split; auto.
    + cbn [step]. destruct l; [split; auto|]. rewrite A. split; auto.
  - cbn [step]. destruct (nth_error (grps w) i) as [g|] eqn:Eg; [|split; auto]. destruct (nth_error (objs w) a) as [p|] eqn:Ea; [|split; auto].
    match goal with |- context [refresh ?h ?g0] => destruct (refresh_total h g0 B) as (v & U & R & _) end. rewrite R. cbn [fst gr_refs]. split; auto.
    cbn [objs grps]. intros j g' H. apply put_nth in H. destruct H as [[-> ->]|[_ H]]; [|eauto]. cbn [gr_refs]. apply good_dset; eauto.
  - cbn [step]. destruct (nth_error (grps w) i) as [g|] eqn:Eg; [|split; auto]. pose proof (G i g Eg) as GR.
    pose proof (process_refs_spec d q (gr_refs g) (objs w) GR B) as S. pose proof (kept_objects d q (gr_refs g) (objs w) GR B) as K.
    destruct (process_refs (objs w) (gr_refs g) d q) as [h' oe]. destruct S as (_ & B' & _). cbn [fst] in K.
    assert (G' : forall j g0, nth_error (grps w) j = Some g0 -> good_refs h' (gr_refs g0)).
    { intros j g0 H. eapply good_refs_same; [apply (G j g0 H)|]. intros a p E. destruct (K a p E) as (p' & E' & F & _). eauto. }
    destruct oe as [e|]; [split; auto|]. destruct (refresh_total h' g B') as (v & U & R & _). rewrite R. cbn [fst]. split; auto.
    cbn [objs grps]. intros j g' H. apply put_nth in H. destruct H as [[-> ->]|[_ H]]; [|eauto]. cbn [gr_refs]. eauto.
  - cbn [step]. destruct (nth_error (objs w) a) as [p|] eqn:Ea; [|split; auto]. destruct (pb_process p d q) as [p'|e] eqn:P; [|split; auto].
    cbn [fst]. split; cbn [objs grps].
    + apply Forall_forall. intros x I. apply put_In in I. rewrite Forall_forall in B. destruct I as [->|I]; auto.
      eapply built_process_band; eauto. apply B. eapply nth_error_In; eauto.
    + intros i g H. eapply good_refs_same; [apply (G i g H)|]. intros b x Ex. destruct (Nat.eq_dec a b) as [->|N].
      * exists p'. split; [apply put_same; eapply nth_lt; eauto|]. destruct (process_full _ _ _ _ P) as [-> _]. congruence.
      * exists x. rewrite put_other; auto.
Qed.
Lemma wf_run : forall l w, wf w -> wf (run w l).
Proof. induction l as [|o l IH]; intros w W; simpl; auto. apply IH. now apply wf_step. Qed.
Lemma reachable_wf : forall w, reachable w -> wf w.
Proof. intros w (l & ->). apply wf_run. split; [constructor|]. intros [|i] g H; discriminate. Qed.

(** ** Freshness *)
Lemma as_new_iff : forall v, keyed (pg_bands v) -> (as_new v <-> pg_update (pg_bands v) = Ok v).
Proof.
  intros v K. assert (M : members v <> [] -> pg_make (members v) None = pg_update (pg_bands v)).
  { intros N. unfold pg_make. destruct (members v) as [|p l] eqn:E; [congruence|]. rewrite <- E. f_equal. unfold members.
    destruct K as [K1 K2]. rewrite collect_nodup.
    - rewrite map_map. clear - K2. induction (pg_bands v) as [|[k x] b IH]; simpl; auto. inversion K2; subst. simpl in *. subst k. f_equal. auto.
    - replace (map pb_full (map snd (pg_bands v))) with (dkeys (pg_bands v)); auto. clear - K2.
      induction (pg_bands v) as [|[k x] b IH]; simpl; auto. inversion K2; subst. simpl in *. subst k. f_equal. auto. }
  unfold as_new. split.
  - intros [->|H]; [reflexivity|]. rewrite <- M; auto. intros E. rewrite E in H. discriminate.
  - intros U. destruct (pg_bands v) as [|b l] eqn:E.
    + left. cbn in U. injection U as <-. reflexivity.
    + right. rewrite M; auto. unfold members. rewrite E. discriminate.
Qed.
Lemma view_keyed : forall w i v, wf w -> view w i = Some v -> keyed (pg_bands v).
Proof.
  intros w i v [_ G] H. unfold view in H. destruct (nth_error (grps w) i) as [g|] eqn:E; [|discriminate]. injection H as <-.
  cbn [look pg_bands]. apply deref_keyed. eauto.
Qed.

(** ** Theorems *)
(** Making a group: it is the group the value model makes of the passbands as they are now; making it changes
    no passband and no other group. *)
Theorem C121_make : forall w l fs ps, reachable w -> Forall2 (fun a p => nth_error (objs w) a = Some p) l ps ->
  match pg_make ps fs with
  | Ok v => snd (step w (NewGroup l fs)) = None /\ view (after w (NewGroup l fs)) (length (grps w)) = Some v /\
            objs (after w (NewGroup l fs)) = objs w /\
            forall j, j < length (grps w) -> view (after w (NewGroup l fs)) j = view w j
  | Err e => step w (NewGroup l fs) = (w, Some e)
  end.
Proof.
  intros w l fs ps R F. pose proof (group_spec w l fs ps (proj1 (reachable_wf w R)) F) as S. destruct (pg_make ps fs) as [v|e]; [|exact S].
  destruct S as (g & S & L & _). unfold after. rewrite S. cbn [fst snd]. split; [reflexivity|]. unfold view. cbn [objs grps].
  rewrite nth_error_app2, Nat.sub_diag by lia. cbn [nth_error option_map]. split; [now rewrite L|]. split; [reflexivity|].
  intros j Hj. now rewrite nth_error_app1.
Qed.
(** Adding a passband never fails; the group is the value model's, everything else is as before. *)
Theorem C121_add : forall w i a v p, reachable w -> view w i = Some v -> nth_error (objs w) a = Some p ->
  exists v', pg_add v p = Ok v' /\ snd (step w (AddBand i a)) = None /\ view (after w (AddBand i a)) i = Some v' /\
    objs (after w (AddBand i a)) = objs w /\ forall j, j <> i -> view (after w (AddBand i a)) j = view w j.
Proof.
  intros w i a v p R V E. destruct (reachable_wf w R) as [B G]. unfold view in V. destruct (nth_error (grps w) i) as [g|] eqn:Eg; [|discriminate].
  injection V as <-. unfold after. cbn [step]. rewrite Eg, E.
  match goal with |- context [refresh ?h ?g0] => destruct (refresh_total h g0 B) as (v & U & RF & L) end. rewrite RF in L |- *. cbn [gr_refs fst] in *.
  exists v. unfold pg_add. cbn [look pg_bands]. rewrite <- (dset_deref _ _ _ a) by eauto. split; [exact U|]. cbn [snd fst]. split; [reflexivity|].
  unfold view. cbn [objs grps]. rewrite put_same by (eapply nth_lt; eauto). cbn [option_map]. split; [now rewrite L|]. split; [reflexivity|].
  intros j N. now rewrite put_other by auto.
Qed.
(** Processing a group.  If it succeeds the group is the one the value model computes.  If it fails, with error [e],
    the passbands up to the one that raised are processed, the others are not, and the cached data are the old ones. *)
Theorem C121_process : forall w i v d q, reachable w -> view w i = Some v ->
  match pg_process v d q with
  | Ok v' => snd (step w (ProcessGroup i d q)) = None /\ view (after w (ProcessGroup i d q)) i = Some v'
  | Err e => snd (step w (ProcessGroup i d q)) = Some e /\
      exists done done' k p rest, pg_bands v = done ++ (k, p) :: rest /\ pb_process p d q = Err e /\
        Forall2 (fun fb fb' => fst fb = fst fb' /\ pb_process (snd fb) d q = Ok (snd fb')) done done' /\
        view (after w (ProcessGroup i d q)) i = Some (mkPG (done' ++ (k, p) :: rest) (pg_waves v) (pg_index v) (pg_names v))
  end.
Proof.
  intros w i v d q R V. destruct (reachable_wf w R) as [B G]. unfold view in V. destruct (nth_error (grps w) i) as [g|] eqn:Eg; [|discriminate].
  injection V as <-. unfold after. cbn [step]. rewrite Eg. pose proof (G i g Eg) as GR.
  pose proof (process_refs_spec d q (gr_refs g) (objs w) GR B) as S. destruct (process_refs (objs w) (gr_refs g) d q) as [h' oe].
  destruct S as (_ & B' & _ & _ & S). unfold pg_process. cbn [look pg_bands]. destruct oe as [e|].
  - destruct S as (r1 & k & a & r2 & p & ER & Ea & P & PR & KP). rewrite ER, deref_app.
    assert (ED : deref (objs w) ((k, a) :: r2) = (k, p) :: deref (objs w) r2) by (simpl; now rewrite Ea). rewrite ED.
    rewrite (fold_process_err d q _ _ k p _ e [] PR P). cbn [bind fst snd]. split; [reflexivity|].
    exists (deref (objs w) r1), (deref h' r1), k, p, (deref (objs w) r2). split; [reflexivity|]. split; [exact P|]. split; [exact PR|].
    unfold view. cbn [objs grps]. rewrite Eg. cbn [option_map]. unfold look. cbn [pg_waves pg_index pg_names]. rewrite ER, deref_app.
    rewrite (deref_ext (objs w) h' ((k, a) :: r2) KP), ED. reflexivity.
  - rewrite (fold_processed d q _ [] _ S). cbn [bind app]. destruct (refresh_total h' g B') as (v' & U & RF & L). rewrite U.
    rewrite RF in L |- *. cbn [fst snd] in *. split; [reflexivity|]. unfold view. cbn [objs grps]. rewrite put_same by (eapply nth_lt; eauto).
    cbn [option_map]. now rewrite L.
Qed.
(** Passbands outside the group, and groups without a passband of the group, do not notice. *)
Theorem C121_others : forall w i d q a, reachable w -> ~ has w i a ->
  nth_error (objs (after w (ProcessGroup i d q))) a = nth_error (objs w) a.
Proof.
  intros w i d q a R N. destruct (reachable_wf w R) as [B G]. unfold after. cbn [step]. destruct (nth_error (grps w) i) as [g|] eqn:Eg; [|reflexivity].
  pose proof (process_refs_spec d q (gr_refs g) (objs w) (G i g Eg) B) as S. destruct (process_refs (objs w) (gr_refs g) d q) as [h' oe].
  destruct S as (_ & _ & _ & S & _). assert (NI : ~ In a (map snd (gr_refs g))).
  { intros I. apply N. apply in_map_iff in I. destruct I as ([k a'] & E & I). simpl in E. subst a'. exists g, k. auto. }
  specialize (S a NI). destruct oe as [e|]; [exact S|]. destruct (refresh h' g) as [g' e]. exact S.
Qed.
Theorem C121_band : forall w a d q p, reachable w -> nth_error (objs w) a = Some p ->
  match pb_process p d q with
  | Ok p' => snd (step w (ProcessBand a d q)) = None /\ nth_error (objs (after w (ProcessBand a d q))) a = Some p' /\
      (forall b, b <> a -> nth_error (objs (after w (ProcessBand a d q))) b = nth_error (objs w) b) /\
      grps (after w (ProcessBand a d q)) = grps w
  | Err e => step w (ProcessBand a d q) = (w, Some e)
  end.
Proof.
  intros w a d q p R E. unfold after. cbn [step]. rewrite E. destruct (pb_process p d q) as [p'|e]; [|reflexivity]. cbn [fst snd objs grps].
  split; [reflexivity|]. split; [apply put_same; eapply nth_lt; eauto|]. split; auto. intros b N. now apply put_other; auto.
Qed.
(** Operations that touch no passband of a group leave what it answers alone. *)
Theorem C121_frame : forall w o i v, reachable w -> view w i = Some v -> ~ touches w o i -> ~ updates o i -> view (after w o) i = Some v.
Proof.
  intros w o i v R V NT NU. pose proof (reachable_wf w R) as [B G].
  assert (VE : forall w', nth_error (grps w') i = nth_error (grps w) i -> (forall a, has w i a -> nth_error (objs w') a = nth_error (objs w) a) ->
    view w' i = Some v).
  { intros w' EG EO. rewrite <- V. unfold view. rewrite EG. destruct (nth_error (grps w) i) as [g|] eqn:Eg; [|reflexivity]. cbn [option_map]. f_equal.
    unfold look. f_equal. apply deref_ext. intros k a I. apply EO. exists g, k. auto. }
  assert (IL : i < length (grps w)).
  { unfold view in V. destruct (nth_error (grps w) i) eqn:Eg; [|discriminate]. eapply nth_lt; eauto. }
  destruct o as [t s f d q u|l fs|j a|j d q|a d q]; cbn [touches updates] in NT, NU.
  - apply VE; unfold after; cbn [step]; destruct (pb_make t s f d q u); cbn [fst objs grps]; auto.
    intros a0 (g & k & Eg & I). destruct (proj2 (G i g Eg) k a0 I) as (x & Ex & _). rewrite nth_error_app1; auto. eapply nth_lt; eauto.
  - destruct (forallb (fun a => a <? length (objs w)) l) eqn:A.
    + apply all_allocated in A. destruct A as (ps & F). pose proof (C121_make w l fs ps R F) as S. destruct (pg_make ps fs) as [v0|e].
      * destruct S as (_ & _ & _ & S). rewrite S; auto.
      * unfold after. rewrite S. exact V.
    + unfold after. cbn [step]. destruct l; [exact V|]. rewrite A. exact V.
  - destruct (nth_error (grps w) j) as [g|] eqn:Eg.
    + destruct (nth_error (objs w) a) as [p|] eqn:Ea.
      * destruct (C121_add w j a (look (objs w) g) p R) as (v' & _ & _ & _ & _ & S); auto; [unfold view; now rewrite Eg|]. rewrite S; auto.
      * unfold after. cbn [step]. rewrite Eg, Ea. exact V.
    + unfold after. cbn [step]. rewrite Eg. exact V.
  - apply VE.
    + clear VE. unfold after. cbn [step]. destruct (nth_error (grps w) j) as [g|]; [|reflexivity]. destruct (process_refs (objs w) (gr_refs g) d q) as [h' [e|]]; [reflexivity|].
      destruct (refresh h' g) as [g' e]. cbn [fst grps]. apply put_other. auto.
    + intros a HA. apply C121_others; auto. intros HJ. apply NT. exists a. auto.
  - apply VE; unfold after; cbn [step]; destruct (nth_error (objs w) a) as [p|]; auto; destruct (pb_process p d q); auto.
    intros b HB. cbn [fst objs]. apply put_other. intros <-. auto.
Qed.
(** A group answers as a newly built one after it was made, after a passband was added and after it was processed
    successfully, and for as long as no passband of it is processed otherwise. *)
Theorem C121_fresh_made : forall w l fs, reachable w -> snd (step w (NewGroup l fs)) = None ->
  fresh (after w (NewGroup l fs)) (length (grps w)).
Proof.
  intros w l fs R S. pose proof (reachable_wf w R) as W. pose proof (wf_step w (NewGroup l fs) W) as W'.
  destruct (forallb (fun a => a <? length (objs w)) l) eqn:A.
  - apply all_allocated in A. destruct A as (ps & F). pose proof (C121_make w l fs ps R F) as M. destruct (pg_make ps fs) as [v|e] eqn:EM.
    + destruct M as (_ & V & _). exists v. split; [exact V|]. apply as_new_iff; [eapply view_keyed; eauto|]. now destruct (make_bands _ _ _ EM).
    + rewrite M in S. discriminate.
  - cbn [step] in S. destruct l; [discriminate|]. rewrite A in S. discriminate.
Qed.
Theorem C121_fresh_updated : forall w o i, reachable w -> updates o i -> snd (step w o) = None -> fresh (after w o) i.
Proof.
  intros w o i R U S. pose proof (reachable_wf w R) as W. pose proof (wf_step w o W) as W'.
  destruct o as [t s f d q u|l fs|j a|j d q|a d q]; cbn [updates] in U; try contradiction; subst j.
  - destruct (nth_error (grps w) i) as [g|] eqn:Eg; [|cbn [step] in S; rewrite Eg in S; discriminate].
    destruct (nth_error (objs w) a) as [p|] eqn:Ea; [|cbn [step] in S; rewrite Eg, Ea in S; discriminate].
    destruct (C121_add w i a (look (objs w) g) p R) as (v' & PA & _ & V & _); auto; [unfold view; now rewrite Eg|].
    exists v'. split; [exact V|]. apply as_new_iff; [eapply view_keyed; eauto|]. unfold pg_add in PA. destruct (update_inv _ _ PA) as (E & _). rewrite E. exact PA.
  - destruct (nth_error (grps w) i) as [g|] eqn:Eg; [|cbn [step] in S; rewrite Eg in S; discriminate].
    pose proof (C121_process w i (look (objs w) g) d q R) as P. unfold view at 1 in P. rewrite Eg in P. specialize (P eq_refl).
    destruct (pg_process (look (objs w) g) d q) as [v'|e] eqn:EP; [|destruct P as [P _]; congruence]. destruct P as (_ & V).
    exists v'. split; [exact V|]. apply as_new_iff; [eapply view_keyed; eauto|]. unfold pg_process in EP.
    destruct (fold_res _ [] (pg_bands (look (objs w) g))) as [b|]; [|discriminate]. cbn [bind] in EP. destruct (update_inv _ _ EP) as (E & _). rewrite E. exact EP.
Qed.
Theorem C121_fresh_kept : forall w o i, reachable w -> fresh w i -> ~ touches w o i -> fresh (after w o) i.
Proof.
  intros w o i R F NT. destruct o as [t s f d q u|l fs|j a|j d q|a d q];
    try (destruct F as (v & V & A); exists v; split; [apply C121_frame; auto|exact A]; fail).
  - destruct (Nat.eq_dec j i) as [->|N].
    + destruct (snd (step w (AddBand i a))) as [e|] eqn:S; [|now apply C121_fresh_updated].
      destruct F as (v & V & A). destruct (nth_error (objs w) a) as [p|] eqn:Ea.
      * destruct (C121_add w i a v p R V Ea) as (_ & _ & S' & _). congruence.
      * exists v. split; [|exact A]. unfold after. cbn [step]. destruct (nth_error (grps w) i); [|exact V]. rewrite Ea. exact V.
    + destruct F as (v & V & A). exists v. split; [apply C121_frame; auto|exact A].
  - destruct (Nat.eq_dec j i) as [->|N].
    + destruct F as (v & V & A). pose proof (C121_process w i v d q R V) as P. destruct (pg_bands v) as [|[k p] b] eqn:EB.
      * destruct (pg_process v d q) as [v'|e] eqn:EP.
        -- destruct P as [_ P]. exists v'. split; [exact P|]. left. unfold pg_process in EP. rewrite EB in EP. cbn in EP. congruence.
        -- unfold pg_process in EP. rewrite EB in EP. discriminate.
      * exfalso. apply NT. cbn [touches]. unfold view in V. destruct (nth_error (grps w) i) as [g|] eqn:Eg; [|discriminate]. injection V as <-.
        cbn [look pg_bands] in EB. assert (I : In (k, p) (deref (objs w) (gr_refs g))) by (rewrite EB; now left). apply deref_In in I.
        destruct I as (a & I & _). exists a. split; exists g, k; auto.
    + destruct F as (v & V & A). exists v. split; [apply C121_frame; auto|exact A].
Qed.

(** ** Processing again *)
Definition same_core (p p' : passband) : Prop :=
  pb_full p' = pb_full p /\ pb_survey p' = pb_survey p /\ pb_filter p' = pb_filter p /\ pb_loaded p' = pb_loaded p.
Definition same_shape (w w' : world) : Prop :=
  (forall a p, nth_error (objs w) a = Some p -> exists p', nth_error (objs w') a = Some p' /\ same_core p p') /\
  (forall i, option_map gr_refs (nth_error (grps w') i) = option_map gr_refs (nth_error (grps w) i)).
Lemma core_refl : forall p, same_core p p.
Proof. intros p. repeat split. Qed.
Lemma shape_step : forall w o, wf w -> processing o -> same_shape w (after w o).
Proof.
  intros w o [B G] P. assert (RF : same_shape w w) by (split; [intros a p E; exists p; split; [exact E|apply core_refl]|reflexivity]).
  destruct o as [t s f d q u|l fs|i a|i d q|a d q]; cbn [processing] in P; try contradiction; unfold after; cbn [step].
  - destruct (nth_error (grps w) i) as [g|] eqn:Eg; [|exact RF].
    pose proof (kept_objects d q (gr_refs g) (objs w) (G i g Eg) B) as K.
    pose proof (process_refs_spec d q (gr_refs g) (objs w) (G i g Eg) B) as S.
    destruct (process_refs (objs w) (gr_refs g) d q) as [h' [e|]]; cbn [fst] in *; [split; [exact K|reflexivity]|].
    destruct S as (_ & B' & _). destruct (refresh_total h' g B') as (v & _ & R & _). rewrite R. split; cbn [fst objs grps]; [exact K|].
    intros j. destruct (Nat.eq_dec i j) as [<-|N]; [|now rewrite put_other]. rewrite put_same by (eapply nth_lt; eauto). now rewrite Eg.
  - destruct (nth_error (objs w) a) as [p|] eqn:E; [|exact RF]. destruct (pb_process p d q) as [p'|e] eqn:EP; [|exact RF]. split; [|reflexivity].
    cbn [fst objs]. intros b x Ex. destruct (Nat.eq_dec a b) as [<-|N].
    + exists p'. rewrite put_same by (eapply nth_lt; eauto). split; auto. assert (x = p) by congruence. subst x.
      destruct (process_full _ _ _ _ EP) as (H1 & H2 & H3 & H4). repeat split; auto.
    + exists x. rewrite put_other by auto. split; [exact Ex|apply core_refl].
Qed.
Lemma shape_run : forall l w, wf w -> Forall processing l -> same_shape w (run w l).
Proof.
  induction l as [|o l IH]; intros w W F; simpl.
  - split; [intros a p E; exists p; split; [exact E|apply core_refl]|reflexivity].
  - inversion F; subst. destruct (shape_step w o W H1) as [S1 S2]. destruct (IH (after w o) (wf_step w o W) H2) as [T1 T2]. split.
    + intros a p E. destruct (S1 a p E) as (p1 & E1 & C1). destruct (T1 a p1 E1) as (p2 & E2 & C2). exists p2. split; [exact E2|].
      unfold same_core in *. repeat split; try (etransitivity; [apply C2|apply C1]).
    + intros i. now rewrite T2.
Qed.
Lemma process_core : forall p p' d q, same_core p p' -> pb_process p' d q = pb_process p d q.
Proof. intros p p' d q (_ & H1 & H2 & H3). unfold pb_process. now rewrite H1, H2, H3. Qed.
Lemma fold_core : forall d q (b b' : dict passband), Forall2 (fun (fb fb' : string * passband) => fst fb' = fst fb /\ same_core (snd fb) (snd fb')) b b' -> forall acc,
  fold_res (fun acc fb => bind (pb_process (snd fb) d q) (fun p => Ok (acc ++ [(fst fb, p)]))) acc b' =
  fold_res (fun acc fb => bind (pb_process (snd fb) d q) (fun p => Ok (acc ++ [(fst fb, p)]))) acc b.
Proof.
  induction 1 as [|[k p] [k' p'] b b' [E C] F IH]; intros acc; simpl; auto. simpl in E, C. subst k'. rewrite (process_core p p') by auto.
  destruct (pb_process p d q); cbn [bind]; auto.
Qed.
Lemma shape_view : forall w w' i v, wf w -> same_shape w w' -> view w i = Some v -> exists v', view w' i = Some v' /\
  forall d q, pg_process v' d q = pg_process v d q.
Proof.
  intros w w' i v [_ G] [S1 S2] V. unfold view in *. specialize (S2 i). destruct (nth_error (grps w) i) as [g|] eqn:Eg; [|discriminate].
  destruct (nth_error (grps w') i) as [g'|]; [|discriminate]. injection S2 as S2. injection V as <-. exists (look (objs w') g'). split; [reflexivity|].
  intros d q. unfold pg_process. f_equal. cbn [look pg_bands]. rewrite S2. apply fold_core. specialize (G i g Eg).
  revert G. generalize (gr_refs g) as refs. clear - S1. induction refs as [|[k a] r IH]; intros G; cbn [deref]; [constructor|]. destruct (proj2 G k a (or_introl eq_refl)) as (p & E & _).
  destruct (S1 a p E) as (p' & E' & C). rewrite E, E'. constructor; [split; auto|]. apply IH. eapply good_tail; eauto.
Qed.
(** Processing only looks at the tables as they were loaded: whatever has been processed before, with whatever
    arguments, through whatever group, successfully or not, processing a group now succeeds exactly when it
    would have at first, with the same error, and leaves the same group. *)
Theorem C121_retry : forall w l i d q, reachable w -> Forall processing l ->
  snd (step (run w l) (ProcessGroup i d q)) = snd (step w (ProcessGroup i d q)) /\
  (snd (step w (ProcessGroup i d q)) = None -> view (after (run w l) (ProcessGroup i d q)) i = view (after w (ProcessGroup i d q)) i).
Proof.
  intros w l i d q R F. pose proof (reachable_wf w R) as W.
  assert (R' : reachable (run w l)). { destruct R as (l0 & ->). exists (l0 ++ l). unfold run. now rewrite fold_left_app. }
  pose proof (shape_run l w W F) as SH. destruct (view w i) as [v|] eqn:V.
  - destruct (shape_view _ _ _ _ W SH V) as (v' & V' & EP). pose proof (C121_process w i v d q R V) as P.
    pose proof (C121_process _ i v' d q R' V') as P'. rewrite EP in P'. destruct (pg_process v d q) as [v1|e].
    + destruct P as [P1 P2], P' as [P1' P2']. rewrite P1, P1', P2, P2'. auto.
    + destruct P as [P1 _], P' as [P1' _]. rewrite P1, P1'. split; auto. discriminate.
  - destruct SH as [_ S2]. specialize (S2 i). unfold view in V. destruct (nth_error (grps w) i) as [g|] eqn:Eg; [discriminate|].
    destruct (nth_error (grps (run w l)) i) as [g'|] eqn:Eg'; [discriminate|]. unfold after. cbn [step]. rewrite Eg, Eg'. cbn [snd fst]. split; auto. discriminate.
Qed.

(** ** The cached data of a group whose passbands were processed elsewhere *)
Section examples.
Local Open Scope R_scope.
Definition wide : table := [(10, 1); (20, 1); (40, 1)].
Definition narrow : table := [(100, 1); (102, 1)].
(** The passbands as made, without regridding and trimming, and the wide one on a grid of step 15. *)
Definition wide_made : passband := mkPB "S" "r" wide [(10, 1 / 10 / (3 / 2)); (20, 1 / 20 / (3 / 2)); (40, 1 / 40 / (3 / 2))] None.
Definition wide_15 : passband := mkPB "S" "r" wide [(10, 1 / 10 / (123 / 80)); (25, 1 / 25 / (123 / 80)); (40, 1 / 40 / (123 / 80))] (Some 15).
Lemma make_wide : pb_make wide "S" "r" None None Angstrom = Ok wide_made.
Proof.
  unfold pb_make, validate, wide. cbn [xs map fst diffs existsb]. rdec. cbn [bind orb]. unfold process_table. cbn [interpolate_table trim_table bind].
  unfold normalize_table, numerators. cbn [map fst snd trapz]. rdec. cbn [bind]. unfold wide_made, wide.
  replace ((20 - 10) * (1 / 10 + 1 / 20) / 2 + ((40 - 20) * (1 / 20 + 1 / 40) / 2 + 0)) with (3 / 2) by field. reflexivity.
Qed.
Lemma floor_unique : forall (z : Z) x, IZR z <= x < IZR z + 1 -> Int_part x = z.
Proof.
  intros z x H. unfold Int_part. assert (up x = (z + 1)%Z) as ->; [|lia]. symmetry. apply tech_up; rewrite plus_IZR; lra.
Qed.
Lemma process_wide : forall p, pb_loaded p = wide -> pb_survey p = "S"%string -> pb_filter p = "r"%string -> pb_process p (Some 15) None = Ok wide_15.
Proof.
  intros p E1 E2 E3. unfold pb_process. rewrite E1, E2, E3. unfold process_table, interpolate_table, wide. cbn [xs map fst snd diffs forallb hd length Nat.leb]. unfold isclose.
  replace (Rleb (Rabs (20 - 10 - 15)) (1 / 10 ^ 8 + 1 / 10 ^ 5 * Rabs 15)) with false.
  2:{ symmetry. apply Rleb_false. rewrite (Rabs_left (20 - 10 - 15)), (Rabs_right 15) by lra. lra. }
  cbn [andb]. rdec. unfold last_x. cbn [last fst xs map]. unfold floor_nat. rewrite (floor_unique 2) by lra.
  change (Z.to_nat 2 + 1)%nat with 3%nat. cbn [linspace seq map INR]. cbn [bind trim_table]. unfold normalize_table, numerators.
  cbn [map fst snd].
  replace (10 + 0 * ((40 - 10) / (1 + 1))) with 10 by field. replace (10 + 1 * ((40 - 10) / (1 + 1))) with 25 by field.
  replace (10 + (1 + 1) * ((40 - 10) / (1 + 1))) with 40 by field. unfold interp, last_x. cbn [interp_seg fst snd hd last]. rdec. unfold lerp. cbn [fst snd trapz]. rdec. 
  replace (1 + (1 - 1) * (10 - 10) / (20 - 10)) with 1 by field. replace (1 + (1 - 1) * (25 - 20) / (40 - 20)) with 1 by field.
  replace (1 + (1 - 1) * (40 - 20) / (40 - 20)) with 1 by field.
  replace ((25 - 10) * (1 / 10 + 1 / 25) / 2 + ((40 - 25) * (1 / 25 + 1 / 40) / 2 + 0)) with (123 / 80) by field. reflexivity.
Qed.
Definition narrow_made : passband := mkPB "S" "g" narrow [(100, 1 / 100 / (101 / 5100)); (102, 1 / 102 / (101 / 5100))] None.
Lemma make_narrow : pb_make narrow "S" "g" None None Angstrom = Ok narrow_made.
Proof.
  unfold pb_make, validate, narrow. cbn [xs map fst diffs existsb]. rdec. cbn [bind orb]. unfold process_table. cbn [interpolate_table trim_table bind].
  unfold normalize_table, numerators. cbn [map fst snd trapz]. rdec. cbn [bind]. unfold narrow_made, narrow.
  replace ((102 - 100) * (1 / 100 + 1 / 102) / 2 + 0) with (101 / 5100) by field. reflexivity.
Qed.
(** The narrow passband has one point of a grid of step 15: it cannot be normalised. *)
Lemma process_narrow : pb_process narrow_made (Some 15) None = Err ValueError.
Proof.
  unfold pb_process, process_table, interpolate_table. cbn [narrow_made pb_loaded]. unfold narrow. cbn [xs map fst snd diffs forallb hd length Nat.leb]. unfold isclose.
  replace (Rleb (Rabs (102 - 100 - 15)) (1 / 10 ^ 8 + 1 / 10 ^ 5 * Rabs 15)) with false.
  2:{ symmetry. apply Rleb_false. rewrite (Rabs_left (102 - 100 - 15)), (Rabs_right 15) by lra. lra. }
  cbn [andb]. rdec. unfold last_x. cbn [last fst xs map]. unfold floor_nat. rewrite (floor_unique 0) by lra.
  change (Z.to_nat 0 + 1)%nat with 1%nat. reflexivity.
Qed.
Lemma update_wide : forall p a b c, pb_table p = [a; b; c] -> fst a + 1 <= fst b -> fst b + 1 <= fst c ->
  pg_update [("S_r"%string, p)] = Ok (mkPG [("S_r"%string, p)] [fst a; fst b; fst c] [("S_r"%string, [0; 1; 2]%nat)] [(pb_filter p, ["S_r"%string])]).
Proof.
  intros p [a a'] [b b'] [c c'] T H1 H2. simpl in H1, H2. unfold pg_update, merge_waves, filter_names.
  cbn [flat_map snd fst]. unfold pb_waves. rewrite T. cbn [xs map fst app sortR]. cbn [insertR]. rdec. cbn [insertR]. rdec.
  cbn [keep_gaps]. rewrite threshold_val. rdec. cbn [fold_res bind fst snd band_indices]. unfold pb_waves. rewrite T. cbn [xs map fst snd band_indices last].
  unfold ss_left. cbn [filter]. rdec. cbn [length firstn skipn Nat.add Nat.sub list_eqb]. rdec. cbn [andb bind dset seq fold_left dget fst snd]. reflexivity.
Qed.
Lemma update_pair : pg_update [("S_r"%string, wide_made); ("S_g"%string, narrow_made)] = Ok (mkPG [("S_r"%string, wide_made); ("S_g"%string, narrow_made)]
  [10; 20; 40; 100; 102] [("S_r"%string, [0; 1; 2]%nat); ("S_g"%string, [3; 4]%nat)] [("r"%string, ["S_r"%string]); ("g"%string, ["S_g"%string])]).
Proof.
  unfold pg_update, merge_waves, filter_names, pb_waves.
  cbn [flat_map snd fst xs map app pb_table wide_made narrow_made sortR]. cbn [insertR]. rdec. cbn [insertR]. rdec. cbn [insertR]. rdec. cbn [insertR]. rdec.
  cbn [keep_gaps]. rewrite threshold_val. rdec. unfold pb_waves. cbn [fold_res bind fst snd band_indices xs map pb_table wide_made narrow_made last].
  unfold ss_left. cbn [filter]. rdec. cbn [length firstn skipn Nat.add Nat.sub list_eqb]. rdec. cbn [andb bind dset seq fold_left dget fst snd]. reflexivity.
Qed.
Definition wide_group : group := mkGroup [("S_r"%string, 0%nat)] [10; 20; 40] [("S_r"%string, [0; 1; 2]%nat)] [("r"%string, ["S_r"%string])].
Lemma step_band : step (mkWorld [] []) (NewBand wide "S" "r" None None Angstrom) = (mkWorld [wide_made] [], None).
Proof. cbn [step]. now rewrite make_wide. Qed.
Lemma step_group : forall gs, step (mkWorld [wide_made] gs) (NewGroup [0%nat] None) = (mkWorld [wide_made] (gs ++ [wide_group]), None).
Proof.
  intros gs. cbn [step objs grps forallb length Nat.ltb Nat.leb andb]. unfold collect_refs. cbn [fold_left nth_error dset pb_full wide_made pb_survey pb_filter append].
  cbn [length Nat.eqb negb]. unfold refresh. cbn [deref gr_refs nth_error].
  change (mkPB "S" "r" wide [(10, 1 / 10 / (3 / 2)); (20, 1 / 20 / (3 / 2)); (40, 1 / 40 / (3 / 2))] None) with wide_made.
  rewrite (update_wide wide_made _ _ _ eq_refl) by (cbn; lra). reflexivity.
Qed.
(** Two groups share a passband.  Processing the second one makes the first one answer wrongly, without an
    error: at its own wavelengths 10, 20, 40 it returns 720/41 for the spectrum F(x) = x, where the group newly
    built from the same passband returns 800/41 (at its wavelengths 10, 25, 40). *)
Theorem C121_shared_refuted : exists w v vn, reachable w /\ fresh w 0 /\
  snd (step w (ProcessGroup 1 (Some 15) None)) = None /\ view (after w (ProcessGroup 1 (Some 15) None)) 0 = Some v /\
  pg_waves v = [10; 20; 40] /\ pg_bandfluxes v [[10; 20; 40]] = Ok [("S_r"%string, [720 / 41])] /\
  pg_make (members v) None = Ok vn /\ pg_waves vn = [10; 25; 40] /\ pg_bandfluxes vn [[10; 25; 40]] = Ok [("S_r"%string, [800 / 41])].
Proof.
  set (w := mkWorld [wide_made] [wide_group; wide_group]).
  set (vn := mkPG [("S_r"%string, wide_15)] [10; 25; 40] [("S_r"%string, [0; 1; 2]%nat)] [("r"%string, ["S_r"%string])]).
  set (v := mkPG [("S_r"%string, wide_15)] [10; 20; 40] [("S_r"%string, [0; 1; 2]%nat)] [("r"%string, ["S_r"%string])]).
  assert (U : pg_update [("S_r"%string, wide_15)] = Ok vn) by (rewrite (update_wide wide_15 _ _ _ eq_refl) by (cbn; lra); reflexivity).
  assert (R1 : reachable (mkWorld [wide_made] [wide_group])).
  { exists [NewBand wide "S" "r" None None Angstrom; NewGroup [0%nat] None]. unfold run, after. cbn [fold_left]. rewrite step_band. cbn [fst].
    now rewrite step_group. }
  assert (S2 : step (mkWorld [wide_made] [wide_group]) (NewGroup [0%nat] None) = (w, None)) by apply step_group.
  assert (R : reachable w).
  { destruct R1 as (l & E). exists (l ++ [NewGroup [0%nat] None]). unfold run in *. rewrite fold_left_app, <- E. cbn [fold_left]. unfold after. now rewrite S2. }
  exists w, v, vn. split; [exact R|]. split.
  { assert (w = after (mkWorld [wide_made] [wide_group]) (NewGroup [0%nat] None)) as -> by (unfold after; now rewrite S2).
    apply C121_fresh_kept; auto. assert (R0 : reachable (mkWorld [wide_made] [])).
    { exists [NewBand wide "S" "r" None None Angstrom]. unfold run, after. cbn [fold_left]. now rewrite step_band. }
    pose proof (C121_fresh_made _ [0%nat] None R0) as F. unfold after in F. rewrite step_group in F. cbn [fst snd grps length app] in F. now apply F. }
  assert (ST : step w (ProcessGroup 1 (Some 15) None) = (mkWorld [wide_15] [wide_group; mkGroup [("S_r"%string, 0%nat)] [10; 25; 40] [("S_r"%string, [0; 1; 2]%nat)] [("r"%string, ["S_r"%string])]], None)).
  { unfold w. cbn [step grps objs nth_error wide_group gr_refs process_refs]. rewrite (process_wide wide_made) by reflexivity. cbn [put].
    unfold refresh. match goal with |- context [deref ?h ?r] => change (deref h r) with [("S_r"%string, wide_15)] end. rewrite U. reflexivity. }
  unfold after. rewrite ST. cbn [fst snd]. split; [reflexivity|]. split; [reflexivity|]. split; [reflexivity|]. split.
  - unfold v, pg_bandfluxes. cbn. unfold row_bandflux. cbn. do 4 f_equal. field.
  - split; [exact U|]. split; [reflexivity|]. unfold vn, pg_bandfluxes. cbn. unfold row_bandflux. cbn. do 4 f_equal. field.
Qed.
(** Processing fails at the second passband: the first one is already on the new grid, the group still has its old
    wavelengths, and it goes on answering, wrongly: 720/41 instead of 20 before and 800/41 for the table it now holds. *)
Theorem C121_failed_refuted : exists w v v', reachable w /\ fresh w 0 /\ view w 0 = Some v /\
  pg_waves v = [10; 20; 40; 100; 102] /\ pg_bandflux v [[10; 20; 40; 100; 102]] "S_r" = Ok [20] /\
  snd (step w (ProcessGroup 0 (Some 15) None)) = Some ValueError /\ view (after w (ProcessGroup 0 (Some 15) None)) 0 = Some v' /\
  pg_waves v' = [10; 20; 40; 100; 102] /\ pg_bandflux v' [[10; 20; 40; 100; 102]] "S_r" = Ok [720 / 41].
Proof.
  set (g := mkGroup [("S_r"%string, 0%nat); ("S_g"%string, 1%nat)] [10; 20; 40; 100; 102] [("S_r"%string, [0; 1; 2]%nat); ("S_g"%string, [3; 4]%nat)]
    [("r"%string, ["S_r"%string]); ("g"%string, ["S_g"%string])]).
  set (w0 := mkWorld [wide_made; narrow_made] []). set (w := mkWorld [wide_made; narrow_made] [g]).
  assert (R0 : reachable w0).
  { exists [NewBand wide "S" "r" None None Angstrom; NewBand narrow "S" "g" None None Angstrom]. unfold run, after. cbn [fold_left]. rewrite step_band. cbn [fst].
    cbn [step]. now rewrite make_narrow. }
  assert (S1 : step w0 (NewGroup [0; 1]%nat None) = (w, None)).
  { unfold w0. cbn [step objs grps forallb length Nat.ltb Nat.leb andb]. unfold collect_refs.
    change (fold_left (fun acc a => match nth_error [wide_made; narrow_made] a with Some p => dset (pb_full p) a acc | None => acc end) [0; 1]%nat [])
      with [("S_r"%string, 0%nat); ("S_g"%string, 1%nat)]. cbn [length Nat.eqb negb]. unfold refresh.
    change (deref [wide_made; narrow_made] (gr_refs (mkGroup [("S_r"%string, 0%nat); ("S_g"%string, 1%nat)] [] [] [])))
      with [("S_r"%string, wide_made); ("S_g"%string, narrow_made)]. rewrite update_pair. reflexivity. }
  assert (R : reachable w).
  { destruct R0 as (l & E). exists (l ++ [NewGroup [0; 1]%nat None]). unfold run in *. rewrite fold_left_app, <- E. cbn [fold_left]. unfold after. now rewrite S1. }
  exists w, (look [wide_made; narrow_made] g), (look [wide_15; narrow_made] g). split; [exact R|]. split.
  { pose proof (C121_fresh_made _ [0; 1]%nat None R0) as F. unfold after in F. rewrite S1 in F. cbn [fst snd] in F. now apply F. }
  split; [reflexivity|]. split; [reflexivity|]. split.
  { unfold g. cbn. unfold row_bandflux. cbn. do 2 f_equal. field. }
  assert (ST : step w (ProcessGroup 0 (Some 15) None) = (mkWorld [wide_15; narrow_made] [g], Some ValueError)).
  { unfold w, g. cbn [step grps objs nth_error gr_refs process_refs]. rewrite (process_wide wide_made) by reflexivity. cbn [put nth_error process_refs].
    rewrite process_narrow. reflexivity. }
  unfold after. rewrite ST. cbn [fst snd]. split; [reflexivity|]. split; [reflexivity|]. split; [reflexivity|].
  unfold g. cbn. unfold row_bandflux. cbn. do 2 f_equal. field.
Qed.
End examples.
