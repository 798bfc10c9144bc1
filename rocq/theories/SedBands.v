(** Property C45: band fluxes, one per observation, in observation order. *)
From Coq Require Import Reals String List Bool Arith ZArith Lia Lra Permutation.
From Verif Require Import Base BaseFacts RealBase PassbandModel PassbandProofs PassbandProps PassbandGroupProps ObsTableModel SedModel SedProps SedPipeline.
Import ListNotations.
Open Scope R_scope.

(** ** Partial functions, applied to a list element by element *)
Definition opt {A} (r : result A) : option A := match r with Ok a => Some a | Err _ => None end.
Definition obind {A B} (o : option A) (f : A -> option B) : option B := match o with Some a => f a | None => None end.
Fixpoint traverse {A B} (f : A -> option B) (l : list A) : option (list B) :=
  match l with
  | [] => Some []
  | a :: l' => obind (f a) (fun b => obind (traverse f l') (fun bs => Some (b :: bs)))
  end.
Lemma opt_bind : forall A B (r : result A) (f : A -> result B), opt (bind r f) = obind (opt r) (fun a => opt (f a)).
Proof. destruct r; reflexivity. Qed.
Lemma traverse_ext : forall A B (f g : A -> option B) l, (forall x, In x l -> f x = g x) -> traverse f l = traverse g l.
Proof.
  induction l as [|a l IH]; intros H; simpl; auto. rewrite (H a) by (left; auto). rewrite IH by (intros; apply H; right; auto). reflexivity.
Qed.
Lemma traverse_length : forall A B (f : A -> option B) l r, traverse f l = Some r -> length r = length l.
Proof.
  induction l as [|a l IH]; intros r H; simpl in H; [inversion H; auto|]. destruct (f a); [|discriminate]. simpl in H.
  destruct (traverse f l); [|discriminate]. simpl in H. inversion H; subst. simpl. f_equal. auto.
Qed.
Lemma traverse_none : forall A B (f : A -> option B) l x, In x l -> f x = None -> traverse f l = None.
Proof.
  induction l as [|a l IH]; intros x HI E; [destruct HI|]. simpl. destruct HI as [->|HI]; [now rewrite E|].
  destruct (f a); simpl; auto. now rewrite (IH x).
Qed.
Lemma traverse_spec : forall A B (f : A -> option B) l r, traverse f l = Some r <-> Forall2 (fun a b => f a = Some b) l r.
Proof.
  induction l as [|a l IH]; intros r; simpl.
  - split; [intros H; inversion H; constructor|intros H; inversion H; reflexivity].
  - destruct (f a) as [b|] eqn:E; simpl.
    + destruct (traverse f l) as [bs|]; simpl.
      * split; intros H; inversion H; subst; [constructor; auto; now apply IH|]. apply IH in H4. inversion H4; subst. congruence.
      * split; intros H; inversion H; subst. apply IH in H4. discriminate.
    + split; intros H; inversion H; congruence.
Qed.
(** First every element, then every element with its first result. *)
Lemma traverse_then : forall A B C (f : A -> option B) (g : A * B -> option C) l,
  obind (traverse f l) (fun b => traverse g (combine l b)) = traverse (fun a => obind (f a) (fun b => g (a, b))) l.
Proof.
  induction l as [|a l IH]; simpl; auto. destruct (f a) as [b|]; simpl; auto. rewrite <- IH.
  destruct (traverse f l) as [bs|]; simpl; auto. destruct (g (a, b)); auto.
Qed.
(** ... combined with a second list. *)
Lemma traverse_acc : forall A B (f : A -> option R) (h : R -> R -> R) (g : A * R -> option B) l acc, length acc = length l ->
  obind (traverse f l) (fun b => traverse g (combine l (map (fun q => h (fst q) (snd q)) (combine acc b)))) =
  traverse (fun ax => obind (f (fst ax)) (fun b => g (fst ax, h (snd ax) b))) (combine l acc).
Proof.
  induction l as [|a l IH]; intros acc H; destruct acc as [|x acc]; try discriminate; auto. simpl in H.
  cbn [combine traverse fst snd]. rewrite <- IH by lia. destruct (f a) as [b|]; simpl; auto.
  destruct (traverse f l) as [bs|]; simpl; auto. destruct (g (a, h x b)); auto.
Qed.
Lemma traverse_combine_fst : forall A B C (f : A -> option C) (l : list A) (b : list B), length b = length l ->
  traverse (fun ab => f (fst ab)) (combine l b) = traverse f l.
Proof. induction l as [|a l IH]; intros [|x b] H; try discriminate; auto. simpl in *. rewrite IH by lia. reflexivity. Qed.

(** ** Independence of observations *)
(** [F] computes each observation by itself: the value for the pair (time, filter) is [phi] of the pair, and the call
    fails exactly when one of the observations fails. *)
Definition each (F : list R -> list string -> result (list R)) (phi : R * string -> option R) : Prop :=
  forall ts fs, ts <> [] -> length fs = length ts -> opt (F ts fs) = traverse phi (combine ts fs).
(** Likewise for the rows of [evaluate_sed] at fixed wavelengths (every row has one entry per wavelength). *)
Definition each_row (F : list R -> result matrix) (n : nat) : Prop :=
  exists phi : R -> option (list R), (forall t r, phi t = Some r -> length r = n) /\
    forall ts, ts <> [] -> opt (F ts) = traverse phi ts.
(** Likewise for the band-flux form of an effect. *)
Definition each_effect (e : effect) (ps : params) : Prop :=
  exists phi : R * string * R -> option R, forall ts fs b, ts <> [] -> length fs = length ts -> length b = length ts ->
    opt (ef_band e ts fs ps b) = traverse phi (combine (combine ts fs) b).
(** A model whose parts treat the observations one by one (no dependence on the other observations of the call). *)
Fixpoint one_by_one (m : phys) (st : gst) {struct m} : Prop :=
  match m with
  | PSed s => forall ws, each_row (fun ts => sed_single s ts ws st []) (length ws)
  | PBand b => exists phi, each (fun ts fs => band_single b ts fs st) phi
  | PAdd node _ objs weights obs =>
      length weights = length objs /\
      (fix all l := match l with [] => True | o :: l' => one_by_one o st /\ all l' end) objs /\
      forall e ps, In e obs -> dget node st = Some ps -> each_effect e ps
  | PRand node _ objs names obs =>
      (fix all l := match l with [] => True | o :: l' => one_by_one o st /\ all l' end) objs /\
      forall e ps, In e obs -> dget node st = Some ps -> each_effect e ps
  end.

(** ** One SED model *)
Lemma ins_name_In : forall x s l, In x (ins_name s l) <-> x = s \/ In x l.
Proof.
  induction l as [|y l IH]; simpl; [intuition|]. destruct (String.compare s y) eqn:E; simpl.
  - apply String.compare_eq_iff in E. subst. intuition.
  - intuition.
  - rewrite IH. intuition.
Qed.
Lemma unique_names_In : forall x l, In x (unique_names l) <-> In x l.
Proof. induction l as [|a l IH]; simpl; [tauto|]. rewrite ins_name_In, IH. intuition. Qed.
(** Sortedness for [String.compare]. *)
Definition below (a b : string) : Prop := String.compare a b = Lt.
Lemma compare_trans : forall a b c, below a b -> below b c -> below a c.
Proof.
  unfold below. induction a as [|x a IH]; intros [|y b] [|z c]; simpl; auto; try discriminate.
  destruct (Ascii.compare x y) eqn:E1; try discriminate.
  - apply Ascii.compare_eq_iff in E1. subst. destruct (Ascii.compare y z); auto; try discriminate. eauto.
  - intros _. destruct (Ascii.compare y z) eqn:E2; try discriminate.
    + apply Ascii.compare_eq_iff in E2. subst. rewrite E1. auto.
    + intros _. unfold Ascii.compare in *. rewrite N.compare_lt_iff in *. replace (_ ?= _)%N with Lt; auto.
      symmetry. apply N.compare_lt_iff. eapply N.lt_trans; eauto.
Qed.
Lemma compare_gt : forall a b, String.compare a b = Gt -> below b a.
Proof. unfold below. intros a b H. rewrite String.compare_antisym, H. reflexivity. Qed.
Inductive sorted_names : list string -> Prop :=
| sn_nil : sorted_names []
| sn_cons : forall a l, (forall x, In x l -> below a x) -> sorted_names l -> sorted_names (a :: l).
Lemma ins_name_sorted : forall s l, sorted_names l -> sorted_names (ins_name s l).
Proof.
  induction 1 as [|a l H HS IH]; simpl; [constructor; [intros x []|constructor]|].
  destruct (String.compare s a) eqn:E.
  - constructor; auto.
  - constructor; [|constructor; auto]. intros x [<-|HI]; auto. eapply compare_trans; [exact E|]. auto.
  - constructor; auto. intros x HI. apply ins_name_In in HI. destruct HI as [->|HI]; auto. now apply compare_gt.
Qed.
Lemma below_irrefl : forall a, ~ below a a.
Proof. unfold below. intros a H. pose proof (String.compare_antisym a a) as X. rewrite H in X. discriminate. Qed.
Lemma sorted_names_NoDup : forall l, sorted_names l -> NoDup l.
Proof. induction 1 as [|a l H HS IH]; constructor; auto. intros HI. apply (below_irrefl a). auto. Qed.
(** [np.unique]: sorted, without repetition, the same names. *)
Lemma unique_names_sorted : forall l, sorted_names (unique_names l).
Proof. induction l; simpl; [constructor|]. now apply ins_name_sorted. Qed.

(** The value of one observation. *)
Definition one_value (g : option pgroup) (rows : list R -> R -> option (list R)) (tf : R * string) : option R :=
  obind g (fun g => obind (opt (pg_getitem g (snd tf))) (fun p =>
    obind (rows (pb_waves p) (fst tf)) (fun r =>
      if (length r =? 0)%nat then None else Some (row_bandflux (pb_table p) (pb_delta p) r)))).
Lemma put_traverse : forall (psi : R -> option R) f0 ts fs out, length fs = length ts -> length out = length ts ->
  obind (traverse psi (mask_list (map (fun x => String.eqb x f0) fs) ts))
        (fun b => Some (put (map (fun x => String.eqb x f0) fs) b out)) =
  traverse (fun y => if String.eqb (snd (fst y)) f0 then psi (fst (fst y)) else Some (snd y)) (combine (combine ts fs) out).
Proof.
  intros psi f0. induction ts as [|t ts IH]; intros [|f fs] [|o out] H1 H2; try discriminate; auto.
  simpl in H1, H2. cbn [combine traverse fst snd map]. rewrite <- IH by lia.
  cbn [mask_list]. destruct (String.eqb f f0) eqn:E.
  - cbn [traverse]. destruct (psi t) as [b|]; simpl; auto. destruct (traverse psi _); simpl; auto.
  - destruct (traverse psi _); simpl; auto.
Qed.
Lemma mask_nonempty : forall f0 ts fs, length fs = length ts -> In f0 fs -> mask_list (map (fun x => String.eqb x f0) fs) ts <> ([] : list R).
Proof.
  induction ts as [|t ts IH]; intros [|f fs] H HI; try discriminate; [destruct HI|]. cbn [map mask_list].
  destruct (String.eqb_spec f f0); [discriminate|]. destruct HI as [->|HI]; [congruence|]. apply IH; auto.
Qed.
Lemma in_combine_filter : forall (f0 : string) ts fs, length fs = length ts -> In f0 fs -> exists t : R, In (t, f0) (combine ts fs).
Proof.
  induction ts as [|t ts IH]; intros [|f fs] H HI; try discriminate; [destruct HI|]. simpl. destruct HI as [->|HI]; eauto.
  destruct (IH fs) as [t' Ht]; auto. eauto.
Qed.
Lemma in_combine_l' : forall A B (a : list A) (b : list B) x, length b = length a -> In x a -> exists y, In (x, y) (combine a b).
Proof.
  induction a as [|u a IH]; intros [|v b] x H HI; try discriminate; [destruct HI|]. simpl. destruct HI as [->|HI]; eauto.
  destruct (IH b x) as [y Hy]; auto. eauto.
Qed.
Lemma rows_bandflux : forall p (phi : R -> option (list R)) ts, ts <> [] -> (forall t r, phi t = Some r -> length r = length (pb_waves p)) ->
  obind (traverse phi ts) (fun m => opt (fluxes_to_bandflux p m)) =
  traverse (fun t => obind (phi t) (fun r => if (length r =? 0)%nat then None else Some (row_bandflux (pb_table p) (pb_delta p) r))) ts.
Proof.
  intros p phi ts HN HL. destruct ts as [|t ts]; [congruence|]. clear HN. cbn [traverse]. destruct (phi t) as [r|] eqn:E; simpl; auto.
  pose proof (HL _ _ E) as L0. destruct (length r =? 0)%nat eqn:Z.
  - destruct (traverse phi ts); simpl; auto. rewrite Z. auto.
  - assert (TL : traverse (fun t => obind (phi t) (fun r => if (length r =? 0)%nat then None else Some (row_bandflux (pb_table p) (pb_delta p) r))) ts
                = obind (traverse phi ts) (fun m => Some (map (row_bandflux (pb_table p) (pb_delta p)) m))).
    { clear E t. induction ts as [|t ts IH]; auto. cbn [traverse]. rewrite IH. destruct (phi t) as [r'|] eqn:E; simpl; auto.
      rewrite (HL _ _ E), <- L0, Z. simpl. destruct (traverse phi ts); auto. }
    rewrite TL. simpl. destruct (traverse phi ts) as [m|]; simpl; auto. rewrite Z, L0, Nat.eqb_refl. reflexivity.
Qed.
Lemma sed_bandfluxes_each : forall ev g (rows : list R -> R -> option (list R)),
  (forall ws t r, rows ws t = Some r -> length r = length ws) ->
  (forall ws ts, ts <> [] -> opt (ev ts ws) = traverse (rows ws) ts) ->
  each (sed_bandfluxes ev g) (one_value g rows).
Proof.
  intros ev g rows HL HR ts fs HN HF. unfold sed_bandfluxes.
  set (body := fun out f => match g with None => Err TypeError | Some g => _ end).
  assert (STEP : forall f0 out, In f0 fs -> length out = length ts ->
     opt (body out f0) = traverse (fun y => if String.eqb (snd (fst y)) f0 then one_value g rows (fst y) else Some (snd y)) (combine (combine ts fs) out)).
  { intros f0 out HI LO. assert (FAIL : (forall t, one_value g rows (t, f0) = None) ->
       traverse (fun y => if String.eqb (snd (fst y)) f0 then one_value g rows (fst y) else Some (snd y)) (combine (combine ts fs) out) = None).
    { intros X. destruct (in_combine_filter f0 ts fs HF HI) as [t Ht].
      destruct (in_combine_l' _ _ (combine ts fs) out (t, f0)) as [o Ho]; auto; [rewrite combine_length; lia|].
      apply (traverse_none _ _ _ _ _ Ho). cbn [fst snd]. rewrite String.eqb_refl. apply X. }
    unfold body. destruct g as [g0|] eqn:EG; [|symmetry; now apply FAIL].
    destruct (pg_getitem g0 f0) as [p|] eqn:EP; [|symmetry; apply FAIL; intros t; unfold one_value; simpl; now rewrite EP].
    cbn [bind]. rewrite opt_bind, HR by (now apply mask_nonempty).
    transitivity (obind (obind (traverse (rows (pb_waves p)) (mask_list (map (fun x => String.eqb x f0) fs) ts)) (fun m => opt (fluxes_to_bandflux p m)))
                        (fun b => Some (put (map (fun x => String.eqb x f0) fs) b out))).
    { destruct (traverse (rows (pb_waves p)) _) as [m|]; simpl; auto. destruct (fluxes_to_bandflux p m); auto. }
    rewrite rows_bandflux by (eauto using mask_nonempty). rewrite put_traverse by auto. apply traverse_ext.
    intros [[t f] o] _. cbn [fst snd]. destruct (String.eqb_spec f f0); auto. subst f. unfold one_value. simpl. rewrite EP. reflexivity. }
  assert (LOOP : forall L out, NoDup L -> (forall f, In f L -> In f fs) -> length out = length ts ->
     opt (fold_res body out L) = traverse (fun y => if existsb (String.eqb (snd (fst y))) L then one_value g rows (fst y) else Some (snd y)) (combine (combine ts fs) out)).
  { induction L as [|f0 L IH]; intros out ND HI LO.
    - simpl. symmetry. apply traverse_spec. assert (LC : length (combine ts fs) = length out) by (rewrite combine_length; lia).
      clear - LC. revert out LC. generalize (combine ts fs) as l. induction l as [|a l IH]; intros [|o out] H; try discriminate; constructor; auto.
    - inversion ND as [|? ? N1 N2]; subst. cbn [fold_res].
      transitivity (obind (opt (body out f0)) (fun o => opt (fold_res body o L))).
      { destruct (body out f0); auto. }
      rewrite STEP by (auto; apply HI; left; auto).
      set (F1 := fun y : R * string * R => if String.eqb (snd (fst y)) f0 then one_value g rows (fst y) else Some (snd y)).
      set (F2 := fun y : R * string * R => if existsb (String.eqb (snd (fst y))) L then one_value g rows (fst y) else Some (snd y)).
      transitivity (obind (traverse F1 (combine (combine ts fs) out)) (fun o => traverse F2 (combine (combine ts fs) o))).
      { destruct (traverse F1 _) as [o|] eqn:E; auto. cbn [obind]. apply IH; auto; [intros; apply HI; right; auto|].
        apply traverse_length in E. rewrite E, !combine_length. lia. }
      assert (C : forall l (b o : list R), length o = length b -> length b = length l ->
        traverse F2 (combine l o) = traverse (fun yo => F2 (fst (fst yo), snd yo)) (combine (combine l b) o)).
      { clear. induction l as [|a l IH]; intros [|x b] [|y o] H1 H2; try discriminate; auto. simpl in H1, H2. cbn [combine traverse fst snd].
        rewrite (IH b o) by lia. reflexivity. }
      transitivity (obind (traverse F1 (combine (combine ts fs) out))
         (fun o => traverse (fun yo => F2 (fst (fst yo), snd yo)) (combine (combine (combine ts fs) out) o))).
      { destruct (traverse F1 _) as [o|] eqn:E; auto. cbn [obind]. apply C; [|rewrite combine_length; lia].
        apply traverse_length in E. rewrite E, !combine_length. lia. }
      rewrite (traverse_then _ _ _ F1 (fun yo => F2 (fst (fst yo), snd yo))). apply traverse_ext. intros [[t f] o] _. unfold F1, F2. cbn [fst snd existsb].
      destruct (String.eqb_spec f f0) as [->|N]; cbn [orb obind].
      + assert (X : existsb (String.eqb f0) L = false).
        { apply not_true_is_false. intros X. apply existsb_exists in X. destruct X as (x & H1 & H2). apply String.eqb_eq in H2. subst. contradiction. }
        rewrite X. destruct (one_value g rows (t, f0)); auto.
      + reflexivity. }
  rewrite LOOP; [|apply sorted_names_NoDup, unique_names_sorted|intros f; apply unique_names_In|apply repeat_length].
  transitivity (traverse (fun y : R * string * R => one_value g rows (fst y)) (combine (combine ts fs) (repeat 0 (length ts)))).
  - apply traverse_ext. intros [[t f] o] HI. cbn [fst snd]. replace (existsb (String.eqb f) (unique_names fs)) with true; auto.
    symmetry. apply existsb_exists. exists f. split; [|apply String.eqb_refl]. apply unique_names_In.
    apply in_combine_l in HI. now apply in_combine_r in HI.
  - apply (traverse_combine_fst _ _ _ (one_value g rows)). rewrite repeat_length, combine_length. lia.
Qed.

(** ** All models *)
Lemma phys_rect' : forall (P : phys -> Prop), (forall s, P (PSed s)) -> (forall b, P (PBand b)) ->
  (forall node st objs w obs, Forall P objs -> P (PAdd node st objs w obs)) ->
  (forall node st objs names obs, Forall P objs -> P (PRand node st objs names obs)) -> forall m, P m.
Proof.
  intros P H1 H2 H3 H4. fix IH 1. intros [s|b|node st objs w obs|node st objs names obs]; [apply H1|apply H2|apply H3|apply H4];
    induction objs as [|o objs IHl]; constructor; auto.
Qed.
Lemma bands_each : forall es ps, (forall e, In e es -> each_effect e ps) ->
  exists phi : R * string * R -> option R, forall ts fs b, ts <> [] -> length fs = length ts -> length b = length ts ->
    opt (apply_bands es ts fs ps b) = traverse phi (combine (combine ts fs) b).
Proof.
  induction es as [|e es IH]; intros ps H.
  - exists (fun y => Some (snd y)). intros ts fs b H1 H2 H3. simpl. symmetry. apply traverse_spec.
    assert (L : length (combine ts fs) = length b) by (rewrite combine_length; lia). clear - L. revert b L. generalize (combine ts fs) as l.
    induction l as [|a l IHl]; intros [|x b] L; try discriminate; constructor; auto.
  - destruct (H e (or_introl eq_refl)) as [f1 F1]. destruct (IH ps) as [f2 F2]; [intros; apply H; right; auto|].
    exists (fun y => obind (f1 y) (fun x => f2 (fst y, x))). intros ts fs b H1 H2 H3. unfold apply_bands. cbn [fold_res].
    transitivity (obind (opt (ef_band e ts fs ps b)) (fun b' => opt (apply_bands es ts fs ps b'))).
    { destruct (ef_band e ts fs ps b); auto. }
    rewrite F1 by auto.
    transitivity (obind (traverse f1 (combine (combine ts fs) b)) (fun b' => traverse (fun yb => f2 (fst (fst yb), snd yb)) (combine (combine (combine ts fs) b) b'))).
    { destruct (traverse f1 _) as [b'|] eqn:E; auto. cbn [obind]. apply traverse_length in E. rewrite !combine_length in E. rewrite F2 by (auto; lia).
      assert (L1 : length b = length (combine ts fs)) by (rewrite combine_length; lia).
      assert (L2 : length b' = length (combine ts fs)) by (rewrite combine_length; lia). clear - L1 L2. revert b b' L1 L2. generalize (combine ts fs) as l.
      induction l as [|a l IHl]; intros [|x b] [|x' b'] L1 L2; try discriminate; auto. cbn [combine traverse fst snd]. simpl in L1, L2. rewrite (IHl b b') by lia. reflexivity. }
    rewrite (traverse_then _ _ _ f1 (fun yb => f2 (fst (fst yb), snd yb))). apply traverse_ext. intros [y x] _. reflexivity.
Qed.
(** The loop of the additive model. *)
Definition sum_bands (ev : phys -> list R -> list string -> result (list R)) (ts : list R) (fs : list string) :=
  fix go (l : list phys) (w : list R) (acc : list R) {struct l} : result (list R) :=
    match l, w with
    | o :: l', x :: w' => bind (ev o ts fs) (fun b => go l' w' (vadd acc (vscale x b)))
    | _ :: _, [] => Err IndexError
    | [], _ => Ok acc
    end.
Lemma sum_bands_each : forall ev objs w, length w = length objs -> Forall (fun o => exists phi, each (ev o) phi) objs ->
  exists phi : R * string * R -> option R, forall ts fs acc, ts <> [] -> length fs = length ts -> length acc = length ts ->
    opt (sum_bands ev ts fs objs w acc) = traverse phi (combine (combine ts fs) acc).
Proof.
  intros ev objs w HW H. revert w HW. induction H as [|o objs [f1 F1] H IH]; intros w HW.
  - exists (fun y => Some (snd y)). intros ts fs b H1 H2 H3. simpl. symmetry. apply traverse_spec.
    assert (L : length (combine ts fs) = length b) by (rewrite combine_length; lia). clear - L. revert b L. generalize (combine ts fs) as l.
    induction l as [|a l IHl]; intros [|x b] L; try discriminate; constructor; auto.
  - destruct w as [|x w]; [discriminate|]. destruct (IH w) as [f2 F2]; [simpl in HW; lia|].
    exists (fun y => obind (f1 (fst y)) (fun b => f2 (fst y, snd y + x * b))). intros ts fs acc H1 H2 H3.
    cbn [sum_bands]. rewrite opt_bind, F1 by auto.
    transitivity (obind (traverse f1 (combine ts fs)) (fun b => traverse f2 (combine (combine ts fs) (map (fun q => fst q + x * snd q) (combine acc b))))).
    { destruct (traverse f1 _) as [b|] eqn:E; auto. cbn [obind]. apply traverse_length in E. rewrite combine_length in E.
      assert (V : vadd acc (vscale x b) = map (fun q => fst q + x * snd q) (combine acc b)).
      { unfold vadd, vscale. clear. revert b. induction acc as [|a acc IH]; intros [|y b]; simpl; auto. f_equal. auto. }
      rewrite V. apply F2; auto. rewrite map_length, combine_length. lia. }
    rewrite (traverse_acc _ _ f1 (fun a b => a + x * b) f2) by (rewrite combine_length; lia). reflexivity.
Qed.
Lemma each_seq : forall (F : list R -> list string -> result (list R)) phi (G : list R -> list string -> list R -> result (list R)) (psi : R * string * R -> option R),
  each F phi -> (forall ts fs b, ts <> [] -> length fs = length ts -> length b = length ts -> opt (G ts fs b) = traverse psi (combine (combine ts fs) b)) ->
  each (fun ts fs => bind (F ts fs) (G ts fs)) (fun tf => obind (phi tf) (fun x => psi (tf, x))).
Proof.
  intros F phi G psi HF HG ts fs H1 H2. rewrite opt_bind, HF by auto.
  transitivity (obind (traverse phi (combine ts fs)) (fun b => traverse psi (combine (combine ts fs) b))).
  - destruct (traverse phi _) as [b|] eqn:E; auto. cbn [obind]. apply HG; auto. apply traverse_length in E. rewrite combine_length in E. lia.
  - apply traverse_then.
Qed.
Lemma each_const_fail : forall F, (forall ts fs, opt (F ts fs) = None) -> each F (fun _ => None).
Proof.
  intros F H ts fs H1 H2. rewrite H. destruct ts; [congruence|]. destruct fs; [discriminate|]. reflexivity.
Qed.
Lemma band_eval_each : forall m g st, one_by_one m st -> exists phi, each (fun ts fs => band_eval m g ts fs st) phi.
Proof.
  intros m g st. induction m as [s|b|node se objs w obs IH|node se objs names obs IH] using phys_rect'; intros HO.
  - simpl in HO. set (rows := fun ws t => match sed_single s [t] ws st [] with Ok [r] => Some r | _ => None end).
    assert (RW : forall ws, (forall t r, rows ws t = Some r -> length r = length ws) /\ forall ts, ts <> [] -> opt (sed_single s ts ws st []) = traverse (rows ws) ts).
    { intros ws. destruct (HO ws) as (phi & P1 & P2). assert (E : forall t, rows ws t = phi t).
      { intros t. unfold rows. assert (X : [t] <> []) by discriminate. specialize (P2 [t] X). simpl in P2.
        destruct (sed_single s [t] ws st []) as [m|]; simpl in P2; destruct (phi t); simpl in P2; inversion P2; auto. }
      split; [intros t r; rewrite E; apply P1|]. intros ts HN. rewrite P2 by auto. apply traverse_ext. intros. now rewrite E. }
    exists (one_value g rows). apply sed_bandfluxes_each.
    + intros ws t r. apply RW.
    + intros ws ts. apply RW.
  - exact HO.
  - destruct HO as (HW & HA & HE).
    assert (HA' : Forall (fun o => exists phi, each (fun ts fs => band_eval o g ts fs st) phi) objs).
    { clear HE HW. induction IH as [|o objs H IH IHl]; constructor; destruct HA; auto. }
    destruct (sum_bands_each (fun o ts fs => band_eval o g ts fs st) objs w HW HA') as [f1 F1].
    assert (SUM : each (fun ts fs => sum_bands (fun o ts fs => band_eval o g ts fs st) ts fs objs w (repeat 0 (length ts))) (fun tf => f1 (tf, 0))).
    { intros ts fs H1 H2. rewrite F1 by (auto; apply repeat_length). clear - H2. revert fs H2. induction ts as [|t ts IH]; intros [|f fs] H; try discriminate; auto.
      cbn [combine traverse length repeat]. simpl in H. rewrite IH by lia. reflexivity. }
    destruct (dget node st) as [ps|] eqn:EP.
    + destruct (bands_each obs ps) as [f2 F2]; [intros; eauto|].
      eexists. cbn [band_eval]. unfold local_params. rewrite EP. cbn [bind]. apply (each_seq _ _ (fun ts fs b => apply_bands obs ts fs ps b) f2 SUM). exact F2.
    + exists (fun _ => None). apply each_const_fail. intros ts fs. cbn [band_eval]. unfold local_params. rewrite EP. cbn [bind].
      match goal with |- opt (bind ?X _) = _ => destruct X end; reflexivity.
  - destruct HO as (HA & HE). cbn [band_eval].
    destruct (get_param node st "selected_object") as [|r|name]; try (exists (fun _ => None); apply each_const_fail; reflexivity).
    destruct (dget name (object_map names objs)) as [k|]; [|exists (fun _ => None); apply each_const_fail; reflexivity].
    set (pick := fun ts fs => (fix pick (l : list phys) (k : nat) {struct l} : result (list R) :=
                       match l, k with [], _ => Err KeyError | o :: _, O => band_eval o g ts fs st | _ :: l', S k' => pick l' k' end) objs k).
    assert (PK : exists phi, each pick phi).
    { unfold pick. clear HE. revert k pick. induction IH as [|o objs H IH IHl]; intros k pick.
      - exists (fun _ => None). apply each_const_fail. reflexivity.
      - destruct HA as [HA1 HA2]. destruct k as [|k]; [now apply H|]. apply IHl; auto. }
    destruct PK as [f1 F1]. destruct (dget node st) as [ps|] eqn:EP.
    + destruct (bands_each obs ps) as [f2 F2]; [intros; eauto|].
      eexists. unfold local_params. rewrite EP. cbn [bind]. apply (each_seq _ _ (fun ts fs b => apply_bands obs ts fs ps b) f2 F1). exact F2.
    + exists (fun _ => None). apply each_const_fail. intros ts fs. unfold local_params. rewrite EP. cbn [bind].
      match goal with |- opt (bind ?X _) = _ => destruct X end; reflexivity.
Qed.

(** ** C45 *)
(** The band flux of a single observation. *)
Definition single_flux (m : phys) (g : pbarg) (st : gst) (t : R) (f : string) (x : R) : Prop :=
  evaluate_bandfluxes m g [t] (Some [f]) [st] = Ok (BOne [x]).
Definition group_arg (pb : pbarg) : result (option pgroup) :=
  match pb with POne p => bind (pg_make [p] None) (fun g => Ok (Some g)) | PGroup g => Ok (Some g) | PNoGroup => Ok None end.
Lemma evaluate_unfold : forall m pb ts fs st og, group_arg pb = Ok og -> length fs = length ts ->
  evaluate_bandfluxes m pb ts (Some fs) [st] = bind (band_eval m og ts fs st) (fun b => Ok (BOne b)).
Proof.
  intros m pb ts fs st og HG HL. unfold evaluate_bandfluxes, group_arg in *. apply Nat.eqb_eq in HL.
  destruct pb as [p|g0|]; [destruct (pg_make [p] None); [|discriminate]| |]; cbn [bind fst snd] in *; inversion HG; subst; rewrite HL; reflexivity.
Qed.
Lemma evaluate_group : forall m pb ts fs st b, evaluate_bandfluxes m pb ts (Some fs) [st] = Ok (BOne b) -> exists og, group_arg pb = Ok og.
Proof.
  intros m pb ts fs st b H. unfold evaluate_bandfluxes, group_arg in *. destruct pb as [p|g0|]; eauto.
  destruct (pg_make [p] None); [cbn [bind]; eauto|discriminate].
Qed.
Theorem C45_entries : forall m pb ts fs st b, one_by_one m st -> ts <> [] -> length fs = length ts ->
  evaluate_bandfluxes m pb ts (Some fs) [st] = Ok (BOne b) <->
  Forall2 (fun tf x => single_flux m pb st (fst tf) (snd tf) x) (combine ts fs) b.
Proof.
  intros m pb ts fs st b HO HN HL.
  assert (ONE : forall og phi, group_arg pb = Ok og -> each (fun ts fs => band_eval m og ts fs st) phi ->
     forall tf x, phi tf = Some x <-> single_flux m pb st (fst tf) (snd tf) x).
  { intros og phi EG HP [t f] x. unfold single_flux. cbn [fst snd]. rewrite (evaluate_unfold m pb [t] [f] st og EG) by reflexivity.
    assert (X : [t] <> []) by discriminate. specialize (HP [t] [f] X eq_refl). cbn [combine traverse] in HP.
    destruct (band_eval m og [t] [f] st) as [b'|]; simpl in HP; destruct (phi (t, f)) as [y|]; simpl in HP; inversion HP; subst; simpl;
      split; intros H; inversion H; subst; auto. }
  split.
  - intros H. destruct (evaluate_group _ _ _ _ _ _ H) as [og EG]. destruct (band_eval_each m og st HO) as [phi HP].
    rewrite (evaluate_unfold _ _ _ _ _ og EG HL) in H. specialize (HP ts fs HN HL) as HT. destruct (band_eval m og ts fs st); [|discriminate].
    simpl in HT, H. inversion H; subst. symmetry in HT. apply traverse_spec in HT.
    clear - HT ONE EG HP. induction HT as [|tf x l r H1 H2 IH]; constructor; auto. now apply (ONE og phi EG HP).
  - intros H. destruct ts as [|t ts]; [congruence|]. destruct fs as [|f fs]; [discriminate|]. cbn [combine] in H.
    inversion H as [|? x ? b' H1 H2]; subst. destruct (evaluate_group _ _ _ _ _ _ H1) as [og EG].
    destruct (band_eval_each m og st HO) as [phi HP]. rewrite (evaluate_unfold _ _ _ _ _ og EG HL).
    specialize (HP (t :: ts) (f :: fs) HN HL) as HT.
    assert (HT' : traverse phi (combine (t :: ts) (f :: fs)) = Some (x :: b')).
    { apply traverse_spec. change ((t, f) :: combine ts fs) with (combine (t :: ts) (f :: fs)) in H.
      clear - H ONE EG HP. induction H as [|tf y l r H1 H2 IH]; constructor; auto. now apply (ONE og phi EG HP). }
    rewrite HT' in HT. destruct (band_eval m og (t :: ts) (f :: fs) st); simpl in HT; inversion HT; reflexivity.
Qed.
Lemma F2_length : forall A B (P : A -> B -> Prop) l r, Forall2 P l r -> length l = length r.
Proof. induction 1; simpl; auto. Qed.
(** Entry i belongs to time i and filter i. *)
Theorem C45_aligned : forall m pb ts fs st b i t f, one_by_one m st -> length fs = length ts ->
  evaluate_bandfluxes m pb ts (Some fs) [st] = Ok (BOne b) -> nth_error ts i = Some t -> nth_error fs i = Some f ->
  length b = length ts /\ exists x, nth_error b i = Some x /\ single_flux m pb st t f x.
Proof.
  intros m pb ts fs st b i t f HO HL H Ht Hf. assert (HN : ts <> []) by (intros ->; destruct i; discriminate).
  apply C45_entries in H; auto. split.
  - apply F2_length in H. rewrite combine_length in H. lia.
  - assert (HC : nth_error (combine ts fs) i = Some (t, f)).
    { clear - Ht Hf. revert fs i Ht Hf. induction ts as [|a ts IH]; intros [|c fs] [|i] Ht Hf; try discriminate; simpl in *; auto.
      inversion Ht; inversion Hf; auto. }
    clear - H HC. revert i HC. induction H as [|tf x l r H1 H2 IH]; intros [|i] HC; try discriminate; simpl in *.
    + inversion HC; subst. eauto.
    + auto.
Qed.
(** Permuting the observations permutes the result accordingly. *)
Lemma combine_fst_snd : forall A B (l : list (A * B)), combine (map fst l) (map snd l) = l.
Proof. induction l as [|[a b] l IH]; simpl; f_equal; auto. Qed.
Theorem C45_permutation : forall m pb obs obs' st b, one_by_one m st -> Permutation obs obs' ->
  evaluate_bandfluxes m pb (map fst obs) (Some (map snd obs)) [st] = Ok (BOne b) -> obs <> [] ->
  exists b', evaluate_bandfluxes m pb (map fst obs') (Some (map snd obs')) [st] = Ok (BOne b') /\
             Permutation (combine obs b) (combine obs' b').
Proof.
  intros m pb obs obs' st b HO HP H HN.
  assert (HN1 : map fst obs <> []) by (intros E; apply map_eq_nil in E; auto).
  assert (HN2 : map fst obs' <> []).
  { intros E. apply map_eq_nil in E. subst. apply HN. now apply Permutation_nil, Permutation_sym. }
  apply C45_entries in H; auto; [|now rewrite !map_length]. rewrite combine_fst_snd in H.
  assert (X : exists b', Forall2 (fun tf x => single_flux m pb st (fst tf) (snd tf) x) obs' b' /\ Permutation (combine obs b) (combine obs' b')).
  { clear HN HN1 HN2. revert b H. induction HP as [|o l l' HP IH|o1 o2 l|l1 l2 l3 P1 IH1 P2 IH2]; intros b H.
    - exists []. inversion H; subst. split; constructor.
    - inversion H as [|? x ? r H1 H2]; subst. destruct (IH r H2) as (r' & A & B). exists (x :: r'). split; [constructor; auto|]. simpl. now constructor.
    - inversion H as [|? x ? r H1 H2]; subst. inversion H2 as [|? x' ? r' H3 H4]; subst. exists (x' :: x :: r'). split; [repeat constructor; auto|]. simpl. constructor.
    - destruct (IH1 b H) as (b2 & A & B). destruct (IH2 b2 A) as (b3 & C & D). exists b3. split; auto. now transitivity (combine l2 b2). }
  destruct X as (b' & A & B). exists b'. split; auto. apply C45_entries; auto; [now rewrite !map_length|]. now rewrite combine_fst_snd.
Qed.
(** Several samples: one row per sample, in order. *)
Theorem C45_samples : forall m pb ts fs sts l, length sts <> 1%nat -> length fs = length ts -> sts <> [] ->
  (evaluate_bandfluxes m pb ts (Some fs) sts = Ok (BMany l) <->
   Forall2 (fun st b => evaluate_bandfluxes m pb ts (Some fs) [st] = Ok (BOne b)) sts l).
Proof.
  intros m pb ts fs sts l HN HL HE.
  destruct (group_arg pb) as [og|e] eqn:EG.
  - assert (X : evaluate_bandfluxes m pb ts (Some fs) sts = bind (fold_res (fun acc st => bind (band_eval m og ts fs st) (fun b => Ok (acc ++ [b]))) [] sts) (fun x => Ok (BMany x))).
    { unfold evaluate_bandfluxes, group_arg in *. apply Nat.eqb_eq in HL.
      destruct pb as [p|g0|]; [destruct (pg_make [p] None); [|discriminate]| |]; cbn [bind fst snd] in *; inversion EG; subst; rewrite HL;
        destruct sts as [|sx [|sy sts]]; auto; simpl in HN; congruence. }
    rewrite X. transitivity (fold_res (fun acc st => bind (band_eval m og ts fs st) (fun b => Ok (acc ++ [b]))) [] sts = Ok l).
    + destruct (fold_res _ [] sts); simpl; split; intros H; inversion H; auto.
    + rewrite fold_collect. assert (S1 : forall st x, band_eval m og ts fs st = Ok x <-> evaluate_bandfluxes m pb ts (Some fs) [st] = Ok (BOne x)).
      { intros st x. rewrite (evaluate_unfold _ _ _ _ _ og EG HL). destruct (band_eval m og ts fs st); simpl; split; intros H; inversion H; auto. }
      clear X HN HE. split; intros H; induction H as [|st x sts l H1 H2 IH]; constructor; auto; now apply S1.
  - assert (X : forall sts', exists e', evaluate_bandfluxes m pb ts (Some fs) sts' = Err e').
    { intros sts'. unfold evaluate_bandfluxes, group_arg in *. destruct pb as [p|g0|]; try discriminate.
      destruct (pg_make [p] None); [discriminate|]. cbn [bind]. eauto. }
    split; intros H; exfalso.
    + destruct (X sts) as [e' E']. congruence.
    + destruct sts as [|a sts]; [congruence|]. inversion H as [|? y ? r H1 H2]; subst. destruct (X [a]) as [e' E']. congruence.
Qed.
Theorem C45_errors : forall m g ts fs sts,
  evaluate_bandfluxes m (PGroup g) ts None sts = Err ValueError /\
  (length fs <> length ts -> evaluate_bandfluxes m (PGroup g) ts (Some fs) sts = Err ValueError).
Proof.
  intros. split; [reflexivity|]. intros H. unfold evaluate_bandfluxes. cbn [bind snd]. apply Nat.eqb_neq in H. now rewrite H.
Qed.
(** ** Which models qualify *)
(** An SED model with pointwise [compute_sed] and effects that act value by value. *)
Theorem C45_pointwise_models : forall s (st : gst) (ps : params) z t0 f g, dget (sd_node s) st = Some ps -> in_force s ps z t0 -> -1 < z ->
  computes s st [] f -> (forall e, sd_extrap s = Some e -> extrap_made e) ->
  (forall lo hi, sd_min s st = Some lo -> sd_max s st = Some hi -> lo <= hi) ->
  (forall e, In e (sd_rest s ++ sd_obs s) -> acts e ps (g e)) ->
  (forall e, In e (sd_rest s) -> ef_rest e = true) -> (forall e, In e (sd_obs s) -> ef_rest e = false) ->
  one_by_one (PSed s) st /\
  forall p grp name t, built grp -> denotes grp name p -> pb_waves p <> [] ->
    single_flux (PSed s) (PGroup grp) st t name
      (row_bandflux (pb_table p) (pb_delta p) (map (expected_flux (extended s st f) g (sd_rest s ++ sd_obs s) z t0 t) (pb_waves p))).
Proof.
  intros s st ps z t0 f g HP HF Hz HC HE HB HA HR HO.
  set (s0 := mkSed (sd_node s) (sd_setters s) (sd_redshift s) (sd_min s) (sd_max s) (sd_extrap s) (sd_compute s) [] []).
  assert (RO : filter ef_rest (sd_rest s ++ sd_obs s) = sd_rest s /\ filter (fun e => negb (ef_rest e)) (sd_rest s ++ sd_obs s) = sd_obs s).
  { rewrite !filter_app. split.
    - replace (filter ef_rest (sd_obs s)) with (@nil effect); [rewrite app_nil_r|].
      + clear - HR. induction (sd_rest s) as [|e l IH]; simpl; auto. rewrite (HR e) by (left; auto). f_equal. apply IH. intros. apply HR. right; auto.
      + clear - HO. induction (sd_obs s) as [|e l IH]; simpl; auto. rewrite (HO e) by (left; auto). apply IH. intros. apply HO. right; auto.
    - replace (filter (fun e => negb (ef_rest e)) (sd_rest s)) with (@nil effect); [simpl|].
      + clear - HO. induction (sd_obs s) as [|e l IH]; simpl; auto. rewrite (HO e) by (left; auto). simpl. f_equal. apply IH. intros. apply HO. right; auto.
      + clear - HR. induction (sd_rest s) as [|e l IH]; simpl; auto. rewrite (HR e) by (left; auto). simpl. apply IH. intros. apply HR. right; auto. }
  assert (EV : forall ts ws, ws <> [] -> sed_single s ts ws st [] = Ok (mat ts ws (expected_flux (extended s st f) g (sd_rest s ++ sd_obs s) z t0))).
  { intros ts ws HW.
    pose proof (C42_pipeline s0 (sd_rest s ++ sd_obs s) ts ws st [] ps z t0 f g eq_refl eq_refl HP HF Hz) as X.
    specialize (X (fun a b c K => HC a b c K) HW HE HB HA).
    assert (FL : fold_left add_effect (sd_rest s ++ sd_obs s) (PSed s0) = PSed (fold_left sd_add_effect (sd_rest s ++ sd_obs s) s0)).
    { clear. generalize s0. induction (sd_rest s ++ sd_obs s) as [|e effs IH]; intros s1; [reflexivity|]. simpl fold_left at 1. rewrite IH. reflexivity. }
    rewrite FL in X. destruct (add_all (sd_rest s ++ sd_obs s) s0) as (A & B & C & D & E & F & G & H).
    set (s1 := fold_left sd_add_effect (sd_rest s ++ sd_obs s) s0) in *. rewrite (proj1 RO) in G. rewrite (proj2 RO) in H. cbn in A, B, C, D, E, F, G, H.
    assert (SAME : sed_single s1 ts ws st [] = sed_single s ts ws st []).
    { unfold sed_single. rewrite A. destruct (local_params (sd_node s) st) as [q|]; auto. cbn [bind].
      unfold rest_frame. rewrite B. destruct (if sd_redshift s then _ else _) as [[[rt rw] oz]|]; auto. cbn [bind].
      unfold sed_extrapolated. rewrite C, D, E, F, G, H. reflexivity. }
    change (bind (sed_single s1 ts ws st []) (fun x => Ok (SOne x)) = Ok (SOne (mat ts ws (expected_flux (extended s0 st f) g (sd_rest s ++ sd_obs s) z t0)))) in X.
    rewrite SAME in X. destruct (sed_single s ts ws st []); [|discriminate]. simpl in X. inversion X. reflexivity. }
  split.
  - intros ws. destruct ws as [|w ws].
    + exists (fun _ => None). split; [discriminate|]. intros ts HN. destruct ts as [|t ts]; [congruence|]. cbn [traverse obind].
      destruct (sed_single s (t :: ts) [] st []) eqn:X; auto. exfalso. revert X. unfold sed_single, local_params. rewrite HP. cbn [bind].
      destruct (rest_frame_force s ps (t :: ts) [] z t0 HF Hz) as (oz & RF & _). rewrite RF. cbn [bind map]. discriminate.
    + exists (fun t => Some (map (expected_flux (extended s st f) g (sd_rest s ++ sd_obs s) z t0 t) (w :: ws))). split.
      * intros t r X. inversion X. simpl. now rewrite map_length.
      * intros ts HN. rewrite EV by discriminate. cbn [opt]. symmetry. apply traverse_spec. clear. unfold mat. induction ts as [|t ts IH]; constructor; auto.
  - intros p grp name t HBu HD HW. unfold single_flux. rewrite (evaluate_unfold _ _ _ _ _ (Some grp)) by reflexivity.
    cbn [band_eval]. unfold sed_bandfluxes. cbn [unique_names fold_right ins_name fold_res].
    rewrite (proj1 (C32_getitem grp name HBu) p HD). cbn [bind map mask_list]. rewrite String.eqb_refl. cbn [mask_list].
    rewrite EV by auto. cbn [bind mat map]. unfold fluxes_to_bandflux. rewrite map_length.
    assert (LZ : (length (pb_waves p) =? 0)%nat = false) by (apply Nat.eqb_neq; destruct (pb_waves p); [congruence|discriminate]).
    rewrite LZ, Nat.eqb_refl. reflexivity.
Qed.
