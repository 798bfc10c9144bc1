(** C48: light-curve templates.  What the user gives: for each filter a list of rows (time, value). *)
From Coq Require Import Reals String Ascii List Bool Arith ZArith Lia Lra Permutation.
From Verif Require Import Base BaseFacts RealBase PassbandModel PassbandProofs PassbandProps ObsTableModel SedModel SedProps SimulateProps SedPipeline SedBands NoiseModel NoiseProps TemplateModel.
Import ListNotations.
Open Scope R_scope.

(** ** Remainders *)
Lemma Int_part_spec : forall r z, r - 1 < IZR z <= r -> z = Int_part r.
Proof.
  intros r z H. destruct (base_Int_part r) as [A B]. 
  assert (X : (z < Int_part r + 1)%Z) by (apply lt_IZR; rewrite plus_IZR; lra).
  assert (Y : (Int_part r < z + 1)%Z) by (apply lt_IZR; rewrite plus_IZR; lra). lia.
Qed.
Lemma Rmod_range : forall t p, 0 < p -> 0 <= Rmod t p < p.
Proof.
  intros t p H. unfold Rmod. destruct (base_Int_part (t / p)) as [A B]. set (k := IZR (Int_part (t / p))) in *.
  assert (E : t = p * (t / p)) by (field; lra). set (x := t / p) in *. split.
  - assert (0 <= p * (x - k)) by (apply Rmult_le_pos; lra). lra.
  - assert (p * (x - k) < p * 1) by (apply Rmult_lt_compat_l; lra). lra.
Qed.
Lemma Rmod_unique : forall t p r k, 0 < p -> 0 <= r < p -> t = r + p * IZR k -> Rmod t p = r.
Proof.
  intros t p r k H Hr E. unfold Rmod. assert (X : k = Int_part (t / p)).
  { apply Int_part_spec. assert (Q : t / p = r / p + IZR k) by (rewrite E; field; lra). rewrite Q.
    assert (0 <= r / p) by (apply Rmult_le_pos; [lra|apply Rlt_le, Rinv_0_lt_compat; auto]).
    assert (r / p < 1) by (apply Rmult_lt_reg_r with p; auto; unfold Rdiv; rewrite Rmult_assoc, Rinv_l; lra). lra. }
  rewrite <- X. lra.
Qed.
Lemma Rmod_shift : forall t p k, 0 < p -> Rmod (t + IZR k * p) p = Rmod t p.
Proof.
  intros t p k H. apply Rmod_unique with (k := (Int_part (t / p) + k)%Z); auto; [now apply Rmod_range|].
  unfold Rmod. rewrite plus_IZR. ring.
Qed.
Lemma Rmod_small : forall t p, 0 <= t < p -> Rmod t p = t.
Proof. intros t p H. apply Rmod_unique with (k := 0%Z); lra. Qed.

(** ** Vocabulary of the statements *)
(** The rows the user gave for filter [f]. *)
Definition data_of (i : lcin) (f : string) : option curve :=
  match i with
  | LDict d => option_map tb_rows (dget f d)
  | LArray _ rows => if smem f (map snd rows) then Some (map fst (filter (fun r => String.eqb (snd r) f) rows)) else None
  | LOther => None
  end.
Definition as_flux (mags : bool) (v : R) : R := if mags then mag2flux v else v.
(** The dictionary keys are distinct (true of every Python dict). *)
Definition well_keyed (i : lcin) : Prop := match i with LDict d => NoDup (dkeys d) | _ => True end.

(** ** Construction *)
Lemma fold_collect_dict : forall A B (F : A -> result B) (d : dict A) acc r,
  fold_res (fun acc ft => bind (F (snd ft)) (fun c => Ok (acc ++ [(fst ft, c)]))) acc d = Ok r ->
  exists l, r = acc ++ l /\ Forall2 (fun a b => fst a = fst b /\ F (snd a) = Ok (snd b)) d l.
Proof.
  induction d as [|[k a] d IH]; intros acc r H; simpl in H.
  - inversion H; subst. exists []. split; [now rewrite app_nil_r|constructor].
  - destruct (F a) as [c|] eqn:E; [|discriminate]. simpl in H. destruct (IH _ _ H) as (l & -> & HF).
    exists ((k, c) :: l). split; [now rewrite <- app_assoc|]. constructor; auto.
Qed.
Lemma fold_collect_err : forall A B (F : A -> result B) (d : dict A) acc k a e,
  In (k, a) d -> F a = Err e -> (forall b e', In b d -> F (snd b) = Err e' -> e' = e) ->
  fold_res (fun acc ft => bind (F (snd ft)) (fun c => Ok (acc ++ [(fst ft, c)]))) acc d = Err e.
Proof.
  induction d as [|[k' a'] d IH]; intros acc k a e HI HE HU; [destruct HI|]. simpl.
  destruct (F a') as [c|e'] eqn:E; simpl.
  - destruct HI as [X|HI]; [inversion X; subst; congruence|]. eapply IH; eauto. intros. eapply HU; eauto. right; auto.
  - f_equal. apply (HU (k', a')); auto. left; auto.
Qed.
Lemma F2_dget : forall A B (P : A -> B -> Prop) (d : dict A) (l : dict B) f,
  Forall2 (fun a b => fst a = fst b /\ P (snd a) (snd b)) d l ->
  match dget f d, dget f l with Some a, Some b => P a b | None, None => True | _, _ => False end.
Proof.
  intros A B P d l f H. induction H as [|[k a] [k' b] d l [E1 E2] H IH]; simpl; auto. simpl in E1, E2. subst k'.
  destruct (String.eqb f k); auto.
Qed.
Lemma dget_map : forall A B (g : string -> A -> B) (d : dict A) f, dget f (map (fun fc => (fst fc, g (fst fc) (snd fc))) d) = option_map (g f) (dget f d).
Proof.
  induction d as [|[k a] d IH]; intros f; simpl; auto. destruct (String.eqb_spec f k); subst; auto.
Qed.
Lemma positive_diffs : forall l, forallb (fun d => Rltb 0 d) (diffs l) = true <-> increasing l.
Proof.
  induction l as [|a [|b l] IH]; simpl in *; try tauto. rewrite andb_true_iff, Rltb_true, IH. split; intros [A B]; split; auto; lra.
Qed.
Lemma split_dget : forall rows f, dget f (split_array rows) =
  if smem f (map snd rows) then Some (mkTab 2 (map fst (filter (fun r => String.eqb (snd r) f) rows))) else None.
Proof.
  intros rows f. unfold split_array. set (h := fun f0 => mkTab 2 (map fst (filter (fun r => String.eqb (snd r) f0) rows))).
  assert (X : forall l, dget f (map (fun f0 => (f0, h f0)) l) = if smem f l then Some (h f) else None).
  { induction l as [|a l IH]; simpl; auto. destruct (String.eqb_spec f a); subst; auto. }
  rewrite X. replace (smem f (unique_names (map snd rows))) with (smem f (map snd rows)); auto.
  apply eq_true_iff_eq. rewrite !smem_In. symmetry. apply unique_names_In.
Qed.
(** What a successful construction stores. *)
Definition stored (i : lcin) (mags : bool) (lc : lcdata) : Prop :=
  forall f, dget f (lc_curves lc) = option_map (map (fun p => (fst p - lc_t0 lc, as_flux mags (snd p)))) (data_of i f) /\
    (forall c, data_of i f = Some c -> c <> [] /\ increasing (xs c) /\
       dget f (lc_min lc) = Some (first_x c - lc_t0 lc) /\ dget f (lc_max lc) = Some (last_x c - lc_t0 lc)).
Lemma first_x_map : forall (g : R * R -> R * R) c, c <> [] -> first_x (map g c) = fst (g (hd (0, 0) c)).
Proof. intros g [|p c] H; [congruence|reflexivity]. Qed.
Lemma last_map_gen : forall A B (g : A -> B) c d d', c <> [] -> last (map g c) d' = g (last c d).
Proof.
  induction c as [|a [|b c] IH]; intros d d' H; [congruence|reflexivity|].
  change (last (map g (a :: b :: c)) d') with (last (map g (b :: c)) d'). rewrite (IH d d') by discriminate. reflexivity.
Qed.
Lemma check_inv : forall t0 mags t c, check_curve t0 mags t = Ok c ->
  (tb_cols t = 2 \/ tb_cols t = 3)%nat /\ increasing (xs (tb_rows t)) /\ c = map (fun p => (fst p - t0, as_flux mags (snd p))) (tb_rows t).
Proof.
  intros t0 mags t c H. unfold check_curve in H. destruct (_ || _)%bool eqn:E; [|discriminate]. simpl in H.
  destruct (forallb _ _) eqn:E2; [|discriminate]. simpl in H. inversion H; subst. rewrite positive_diffs in E2.
  rewrite orb_true_iff, !Nat.eqb_eq in E. auto.
Qed.
Lemma validate_periodicity_inv : forall cs t0 cs' t0' p, validate_periodicity cs t0 = Ok (cs', t0', p) ->
  exists f0 c0 rest, cs = (f0, c0) :: rest /\ (2 <= length c0)%nat /\ p = last_x c0 - first_x c0 /\ 0 < p /\
    (forall fc, In fc cs -> allclose (xs (snd fc)) (xs c0) = true /\ isclose (first_y (snd fc)) (last_y (snd fc)) = true) /\
    ((isclose (first_x c0) 0 = true /\ cs' = cs /\ t0' = t0) \/
     (isclose (first_x c0) 0 = false /\ t0 = 0 /\ t0' = first_x c0 /\ cs' = map (fun fc => (fst fc, shift (first_x c0) (snd fc))) cs)).
Proof.
  intros cs t0 cs' t0' p H. unfold validate_periodicity in H. destruct cs as [|[f0 c0] rest]; [discriminate|].
  cbn [map snd] in H. destruct (length c0 <? 2)%nat eqn:EL; [discriminate|]. apply Nat.ltb_ge in EL.
  destruct (forallb _ _) eqn:EF; [|discriminate]. simpl negb in H. cbn iota in H. cbv zeta in H.
  destruct (Rleb _ 0) eqn:EP; [discriminate|]. apply Rleb_false in EP.
  exists f0, c0, rest. split; auto. split; auto.
  assert (AL : forall fc, In fc ((f0, c0) :: rest) -> allclose (xs (snd fc)) (xs c0) = true /\ isclose (first_y (snd fc)) (last_y (snd fc)) = true).
  { intros fc HI. rewrite forallb_forall in EF. specialize (EF (snd fc)). rewrite andb_true_iff in EF. apply EF.
    change (c0 :: map snd rest) with (map snd ((f0, c0) :: rest)). now apply in_map. }
  destruct (isclose (first_x c0) 0) eqn:EC.
  - inversion H; subst. repeat (split; auto).
  - destruct (Reqb t0 0) eqn:ET; [|discriminate]. apply Reqb_true in ET. simpl in H. inversion H; subst. repeat (split; auto).
Qed.
Definition dict_curves (t0 : R) (mags : bool) (d : dict tab) (cs : dict curve) : Prop :=
  Forall2 (fun a b => fst a = fst b /\ check_curve t0 mags (snd a) = Ok (snd b)) d cs.
Lemma make_lc_inv : forall i t0 periodic mags baseline lc b', make_lc i t0 periodic mags baseline = Ok (lc, b') ->
  exists d cs, lc_parse i = Ok d /\ dict_curves t0 mags d cs /\ has_rows (lc_curves lc) = true /\
    (if periodic then exists p, validate_periodicity cs t0 = Ok (lc_curves lc, lc_t0 lc, p) /\ lc_period lc = Some p
     else lc_curves lc = cs /\ lc_t0 lc = t0 /\ lc_period lc = None) /\
    lc_min lc = map (fun fc => (fst fc, first_x (snd fc))) (lc_curves lc) /\
    lc_max lc = map (fun fc => (fst fc, last_x (snd fc))) (lc_curves lc) /\
    match baseline with
    | None => b' = None /\ lc_base lc = map (fun fc => (fst fc, as_flux mags 0)) (lc_curves lc)
    | Some b => (forall f, In f (dkeys (lc_curves lc)) -> In f (dkeys b)) /\ lc_base lc = map (fun fb => (fst fb, as_flux mags (snd fb))) b /\ b' = Some (lc_base lc)
    end.
Proof.
  intros i t0 periodic mags baseline lc b' H. unfold make_lc in H. destruct (lc_parse i) as [d|] eqn:ED; [|discriminate]. cbn [bind] in H.
  destruct (check_curves t0 mags d) as [cs|] eqn:EC; [|discriminate]. cbn [bind] in H. exists d, cs.
  unfold check_curves in EC. destruct (fold_collect_dict _ _ _ _ _ _ EC) as (l & -> & HF). cbn [app] in *. split; auto. split; auto.
  match type of H with bind ?X _ = _ => destruct X as [[[cs' t1] op]|] eqn:EX end; [|discriminate]. cbn [bind] in H.
  destruct (has_rows cs') eqn:ER; [|discriminate]. cbn [negb] in H.
  assert (CORE : lc_curves lc = cs' /\ lc_t0 lc = t1 /\ lc_period lc = op /\ lc_min lc = map (fun fc => (fst fc, first_x (snd fc))) cs' /\
    lc_max lc = map (fun fc => (fst fc, last_x (snd fc))) cs' /\
    match baseline with
    | None => b' = None /\ lc_base lc = map (fun fc => (fst fc, as_flux mags 0)) cs'
    | Some b => (forall f, In f (dkeys cs') -> In f (dkeys b)) /\ lc_base lc = map (fun fb => (fst fb, as_flux mags (snd fb))) b /\ b' = Some (lc_base lc)
    end).
  { destruct baseline as [b|].
    - destruct (forallb _ cs') eqn:EB; [|discriminate]. cbn [negb] in H. inversion H; subst. simpl. repeat (split; auto).
      intros f Hf. apply in_map_iff in Hf. destruct Hf as (fc & <- & HI). rewrite forallb_forall in EB. apply dmem_true. now apply EB.
    - inversion H; subst. simpl. repeat (split; auto). rewrite map_map. reflexivity. }
  destruct CORE as (A & B & C & D & E & F). rewrite A, B. split; auto. split; [|split; auto].
  destruct periodic.
  - destruct (validate_periodicity l t0) as [[[c2 t2] p]|] eqn:EV; [|discriminate]. simpl in EX. inversion EX; subst. exists p. auto.
  - inversion EX; subst. auto.
Qed.
Lemma parse_dget : forall i d f, lc_parse i = Ok d -> option_map tb_rows (dget f d) = data_of i f.
Proof.
  intros i d f H. destruct i as [d0|c rows|]; simpl in H; try discriminate.
  - inversion H; subst. reflexivity.
  - destruct (c =? 3)%nat; [|discriminate]. inversion H; subst. rewrite split_dget. simpl. destruct (smem f (map snd rows)); auto.
Qed.
Lemma make_lc_stored : forall i t0 periodic mags baseline lc b', make_lc i t0 periodic mags baseline = Ok (lc, b') -> stored i mags lc.
Proof.
  intros i t0 periodic mags baseline lc b' H f. destruct (make_lc_inv _ _ _ _ _ _ _ H) as (d & cs & HP & HC & HR & HV & HMN & HMX & _).
  pose proof (parse_dget i d f HP) as PD. pose proof (F2_dget _ _ (fun a b => check_curve t0 mags a = Ok b) d cs f HC) as FG.
  assert (CU : dget f (lc_curves lc) = option_map (map (fun p => (fst p - lc_t0 lc, as_flux mags (snd p)))) (data_of i f)).
  { rewrite <- PD. destruct periodic.
    - destruct HV as (p & HV & _). destruct (validate_periodicity_inv _ _ _ _ _ HV) as (f0 & c0 & rest & EC & _ & _ & _ & _ & [(_ & E1 & E2)|(_ & E0 & E1 & E2)]).
      + rewrite E1, E2. destruct (dget f d), (dget f cs); try tauto. simpl. apply check_inv in FG. destruct FG as (_ & _ & ->). reflexivity.
      + rewrite E2, E1. rewrite (dget_map _ _ (fun _ c => shift (first_x c0) c)). destruct (dget f d), (dget f cs); try tauto. simpl. apply check_inv in FG. destruct FG as (_ & _ & ->).
        rewrite E0. unfold shift. rewrite map_map. f_equal. apply map_ext. intros [a b]. simpl. f_equal. ring.
    - destruct HV as (E1 & E2 & _). rewrite E1, E2. destruct (dget f d), (dget f cs); try tauto. simpl. apply check_inv in FG. destruct FG as (_ & _ & ->). reflexivity. }
  split; auto. intros c Hc. rewrite Hc in CU, PD. simpl in CU.
  assert (NE : c <> []).
  { intros ->. unfold has_rows in HR. rewrite forallb_forall in HR. apply dget_In in CU. specialize (HR _ CU). discriminate. }
  assert (IN : increasing (xs c)).
  { destruct (dget f d) as [tb|]; [|discriminate]. simpl in PD. inversion PD; subst c. destruct (dget f cs); [|tauto]. apply check_inv in FG. tauto. }
  split; auto. split; auto. rewrite HMN, HMX. rewrite (dget_map _ _ (fun _ c => first_x c)), (dget_map _ _ (fun _ c => last_x c)), CU. simpl.
  rewrite first_x_map by auto. unfold last_x. rewrite (last_map_gen _ _ _ c (0, 0)) by auto. auto.
Qed.

(** ** Evaluation is pointwise *)
Definition wrapped (lc : lcdata) (t : R) : R := match lc_period lc with Some p => Rmod t p | None => t end.
Definition lc_value (lc : lcdata) (c : curve) (mn mx base t : R) : R :=
  let q := wrapped lc t in if (Rleb mn q && Rleb q mx)%bool then interp c 0 0 q else base.
Lemma put_repeat : forall (p : R -> bool) (g : R -> R) b ts, put (map p ts) (map g (mask_list (map p ts) ts)) (repeat b (length ts)) = map (fun t => if p t then g t else b) ts.
Proof. intros p g b. induction ts as [|t ts IH]; simpl; auto. destruct (p t); simpl; now rewrite IH. Qed.
Lemma lc_evaluate_map : forall lc ts f c mn mx, dget f (lc_curves lc) = Some c -> dget f (lc_min lc) = Some mn -> dget f (lc_max lc) = Some mx ->
  lc_evaluate lc ts f = Ok (map (lc_value lc c mn mx (match dget f (lc_base lc) with Some b => b | None => 0 end)) ts).
Proof.
  intros lc ts f c mn mx H1 H2 H3. unfold lc_evaluate. rewrite H1, H2, H3. f_equal.
  set (base := match dget f (lc_base lc) with Some b => b | None => 0 end).
  replace (match lc_period lc with Some p => map (fun t => Rmod t p) ts | None => ts end) with (map (wrapped lc) ts).
  2: { unfold wrapped. destruct (lc_period lc); auto. now rewrite map_id. }
  rewrite (put_repeat (fun t => (Rleb mn t && Rleb t mx)%bool)). rewrite map_map. apply map_ext. intros t. reflexivity.
Qed.
Lemma interp_shifted : forall c s (g : R -> R) q, interp (map (fun p => (fst p - s, g (snd p))) c) 0 0 q = interp (map (fun p => (fst p, g (snd p))) c) 0 0 (q + s).
Proof.
  intros c s g q. destruct c as [|p c]; simpl; auto.
  assert (LX : last_x ((fst p - s, g (snd p)) :: map (fun p => (fst p - s, g (snd p))) c) = last_x ((fst p, g (snd p)) :: map (fun p => (fst p, g (snd p))) c) - s).
  { unfold last_x. change ((fst p - s, g (snd p)) :: map (fun p => (fst p - s, g (snd p))) c) with (map (fun p => (fst p - s, g (snd p))) (p :: c)).
    change ((fst p, g (snd p)) :: map (fun p => (fst p, g (snd p))) c) with (map (fun p => (fst p, g (snd p))) (p :: c)).
    rewrite !(last_map_gen _ _ _ (p :: c) (0, 0)) by discriminate. reflexivity. }
  rewrite LX. set (L := last_x _).
  replace (Rltb q (fst p - s)) with (Rltb (q + s) (fst p)) by (apply eq_true_iff_eq; rewrite !Rltb_true; split; lra).
  replace (Rltb (L - s) q) with (Rltb L (q + s)) by (apply eq_true_iff_eq; rewrite !Rltb_true; split; lra).
  destruct (Rltb (q + s) (fst p)); auto. destruct (Rltb L (q + s)); auto. clear. revert p. induction c as [|b c IH]; intros p; simpl; auto.
  replace (Rleb q (fst b - s)) with (Rleb (q + s) (fst b)) by (apply eq_true_iff_eq; rewrite !Rleb_true; split; lra).
  destruct (Rleb (q + s) (fst b)); [|apply (IH b)]. unfold lerp; simpl. replace (fst b - s - (fst p - s)) with (fst b - fst p) by ring. replace (q - (fst p - s)) with (q + s - fst p) by ring. reflexivity.
Qed.
Lemma made_value : forall i t0 periodic mags baseline lc b' f c ts, make_lc i t0 periodic mags baseline = Ok (lc, b') -> data_of i f = Some c ->
  exists base, (match baseline with None => base = as_flux mags 0 | Some b => exists v, dget f b = Some v /\ base = as_flux mags v end) /\
  lc_evaluate lc ts f = Ok (map (fun t => let q := wrapped lc t in
     if (Rleb (first_x c - lc_t0 lc) q && Rleb q (last_x c - lc_t0 lc))%bool
     then interp (map (fun p => (fst p, as_flux mags (snd p))) c) 0 0 (q + lc_t0 lc) else base) ts).
Proof.
  intros i t0 periodic mags baseline lc b' f c ts H HD. destruct (make_lc_stored _ _ _ _ _ _ _ H f) as [CU REST]. rewrite HD in CU. simpl in CU.
  destruct (REST c HD) as (NE & IN & MN & MX). destruct (make_lc_inv _ _ _ _ _ _ _ H) as (d & cs & _ & _ & _ & _ & _ & _ & HB).
  assert (HF : In f (dkeys (lc_curves lc))) by (apply dget_In in CU; apply (in_map fst) in CU; auto).
  exists (match dget f (lc_base lc) with Some b => b | None => 0 end). split.
  - destruct baseline as [b|].
    + destruct HB as (HK & -> & _). specialize (HK f HF). apply dmem_true in HK. unfold dmem in HK. destruct (dget f b) as [v|] eqn:E; [|discriminate].
      exists v. split; auto. rewrite (dget_map _ _ (fun _ x => as_flux mags x)), E. reflexivity.
    + destruct HB as (_ & ->). rewrite (dget_map _ _ (fun _ _ => as_flux mags 0)), CU. reflexivity.
  - rewrite (lc_evaluate_map _ _ _ _ _ _ CU MN MX). f_equal. apply map_ext. intros t. unfold lc_value. cbv zeta. destruct (_ && _)%bool; auto. apply interp_shifted.
Qed.

(** ** C48 *)
(** The reference epoch: the given one; a periodic curve given with epoch 0 takes the first time of its first filter. *)
Theorem C48_reference : forall i t0 periodic mags baseline lc b', make_lc i t0 periodic mags baseline = Ok (lc, b') ->
  lc_t0 lc = t0 \/ (periodic = true /\ t0 = 0 /\ exists f c, data_of i f = Some c /\ lc_t0 lc = first_x c /\ 1 / 10 ^ 8 < Rabs (first_x c)).
Proof.
  intros i t0 periodic mags baseline lc b' H. destruct (make_lc_inv _ _ _ _ _ _ _ H) as (d & cs & HP & HC & _ & HV & _). destruct periodic; [|left; tauto].
  destruct HV as (p & HV & _). destruct (validate_periodicity_inv _ _ _ _ _ HV) as (f0 & c0 & rest & EC & L2 & _ & _ & _ & [(_ & _ & E)|(EF & E0 & E1 & _)]); [left; auto|].
  right. split; auto. split; auto. pose proof (F2_dget _ _ (fun a b => check_curve t0 mags a = Ok b) d cs f0 HC) as FG. pose proof (parse_dget i d f0 HP) as PD.
  rewrite EC in FG. simpl in FG. rewrite String.eqb_refl in FG. destruct (dget f0 d) as [tb|]; [|tauto]. simpl in PD. exists f0, (tb_rows tb). split; [congruence|].
  apply check_inv in FG. destruct FG as (_ & _ & ->). assert (NE : tb_rows tb <> []) by (rewrite map_length in L2; destruct (tb_rows tb); simpl in L2; [lia|discriminate]).
  rewrite first_x_map in * by auto. simpl in *. unfold first_x. rewrite E0, Rminus_0_r in *. split; auto.
  unfold isclose in EF. apply Rleb_false in EF. rewrite Rabs_R0, Rminus_0_r, Rmult_0_r, Rplus_0_r in EF. exact EF.
Qed.
(** At a data time: the data value. *)
Theorem C48_at_data : forall i t0 mags baseline lc b' f c t v ts j out, make_lc i t0 false mags baseline = Ok (lc, b') -> data_of i f = Some c ->
  In (t, v) c -> nth_error ts j = Some (t - t0) -> lc_evaluate lc ts f = Ok out -> nth_error out j = Some (as_flux mags v).
Proof.
  intros i t0 mags baseline lc b' f c t v ts j out H HD HI HJ HE. destruct (made_value _ _ _ _ _ _ _ f c ts H HD) as (base & _ & E).
  rewrite E in HE. inversion HE; subst out. rewrite nth_error_map, HJ. simpl. f_equal.
  destruct (make_lc_inv _ _ _ _ _ _ _ H) as (_ & _ & _ & _ & _ & (_ & HT & HN) & _). destruct (make_lc_stored _ _ _ _ _ _ _ H f) as [_ REST].
  destruct (REST c HD) as (NE & IN & _ & _). unfold wrapped. rewrite HN, HT.
  destruct c as [|p c]; [congruence|].
  assert (LO : first_x (p :: c) <= t).
  { unfold first_x; simpl. destruct HI as [->|HI]; [simpl; lra|]. apply (in_map fst) in HI. simpl in HI. pose proof (increasing_head _ _ _ IN HI). lra. }
  pose proof (last_x_max c p (t, v) IN HI) as HIv. simpl in HIv.
  replace (_ && _)%bool with true by (symmetry; rewrite andb_true_iff, !Rleb_true; split; lra).
  replace (t - t0 + t0) with (fst (t, as_flux mags v)) by (simpl; ring).
  change (as_flux mags v) with (snd (t, as_flux mags v)) at 2. apply interp_knot.
  - unfold xs. rewrite map_map. exact IN.
  - apply in_map_iff. exists (t, v). auto.
Qed.
(** Between two neighbouring data times: on the straight line between the two values. *)
Lemma interp_seg_line : forall t p i p1 p2 q, increasing (xs (p :: t)) -> nth_error (p :: t) i = Some p1 -> nth_error (p :: t) (S i) = Some p2 ->
  fst p1 <= q <= fst p2 -> interp_seg p t q = lerp p1 p2 q.
Proof.
  induction t as [|b t IH]; intros p i p1 p2 q H H1 H2 Hq; [destruct i; discriminate|]. simpl interp_seg.
  destruct i as [|i]; simpl in H1, H2.
  - inversion H1; inversion H2; subst. replace (Rleb q (fst p2)) with true by (symmetry; apply Rleb_true; lra). reflexivity.
  - assert (IT : increasing (xs (b :: t))) by (eapply increasing_tail; exact H).
    assert (B : fst b <= fst p1).
    { destruct i as [|i]; simpl in H1; [inversion H1; lra|]. apply nth_error_In in H1. apply (in_map fst) in H1. pose proof (increasing_head _ _ _ IT H1). lra. }
    destruct (Rleb q (fst b)) eqn:E.
    + apply Rleb_true in E. assert (q = fst b) by lra. assert (EQ : fst p1 = fst b) by lra.
      assert (X : i = 0%nat). { destruct i; auto. simpl in H1. apply nth_error_In in H1. apply (in_map fst) in H1. pose proof (increasing_head _ _ _ IT H1). lra. }
      subst i. simpl in H1. inversion H1; subst p1. destruct t as [|b2 t]; [discriminate|]. simpl in H2. inversion H2; subst.
      destruct H as [Hpb [Hbb _]]. simpl in Hpb, Hbb. rewrite lerp_right by auto. now rewrite lerp_left.
    + apply (IH b i); auto.
Qed.
Lemma interp_line : forall t lf rt i p1 p2 q, increasing (xs t) -> nth_error t i = Some p1 -> nth_error t (S i) = Some p2 -> fst p1 <= q <= fst p2 ->
  interp t lf rt q = lerp p1 p2 q.
Proof.
  intros [|p t] lf rt i p1 p2 q H H1 H2 Hq; [destruct i; discriminate|]. unfold interp.
  pose proof (last_x_max t p p2 H (nth_error_In _ _ H2)) as M.
  assert (LO : fst p <= fst p1).
  { destruct i; simpl in H1; [inversion H1; lra|]. apply nth_error_In in H1. apply (in_map fst) in H1. pose proof (increasing_head _ _ _ H H1). lra. }
  replace (Rltb q (fst p)) with false by (symmetry; apply Rltb_false; lra). replace (Rltb (last_x (p :: t)) q) with false by (symmetry; apply Rltb_false; lra).
  eapply interp_seg_line; eauto.
Qed.
Theorem C48_between : forall i t0 mags baseline lc b' f c k t1 v1 t2 v2 q ts j out, make_lc i t0 false mags baseline = Ok (lc, b') -> data_of i f = Some c ->
  nth_error c k = Some (t1, v1) -> nth_error c (S k) = Some (t2, v2) -> t1 - t0 <= q <= t2 - t0 -> nth_error ts j = Some q -> lc_evaluate lc ts f = Ok out ->
  exists x, nth_error out j = Some x /\
    x = as_flux mags v1 + (as_flux mags v2 - as_flux mags v1) * ((q - (t1 - t0)) / (t2 - t1)) /\
    Rmin (as_flux mags v1) (as_flux mags v2) <= x <= Rmax (as_flux mags v1) (as_flux mags v2).
Proof.
  intros i t0 mags baseline lc b' f c k t1 v1 t2 v2 q ts j out H HD H1 H2 Hq HJ HE. destruct (made_value _ _ _ _ _ _ _ f c ts H HD) as (base & _ & E).
  rewrite E in HE. inversion HE; subst out. rewrite nth_error_map, HJ. simpl. eexists. split; [reflexivity|].
  destruct (make_lc_inv _ _ _ _ _ _ _ H) as (_ & _ & _ & _ & _ & (_ & HT & HN) & _). destruct (make_lc_stored _ _ _ _ _ _ _ H f) as [_ REST].
  destruct (REST c HD) as (NE & IN & _ & _). unfold wrapped. rewrite HN, HT.
  set (c' := map (fun p => (fst p, as_flux mags (snd p))) c).
  assert (IN' : increasing (xs c')) by (unfold c', xs; rewrite map_map; exact IN).
  assert (N1 : nth_error c' k = Some (t1, as_flux mags v1)) by (unfold c'; rewrite nth_error_map, H1; reflexivity).
  assert (N2 : nth_error c' (S k) = Some (t2, as_flux mags v2)) by (unfold c'; rewrite nth_error_map, H2; reflexivity).
  assert (LT : t1 < t2). { apply (increasing_nth (xs c') k (S k)); auto; unfold xs; rewrite nth_error_map; [rewrite N1|rewrite N2]; reflexivity. }
  destruct c as [|p c]; [congruence|].
  pose proof (last_x_max c p _ IN (nth_error_In _ _ H2)) as HI2. simpl in HI2.
  assert (LO : first_x (p :: c) <= t1).
  { unfold first_x; simpl. destruct k; simpl in H1; [inversion H1; simpl; lra|]. apply nth_error_In in H1. apply (in_map fst) in H1. pose proof (increasing_head _ _ _ IN H1). simpl in H0. lra. }
  replace (_ && _)%bool with true by (symmetry; rewrite andb_true_iff, !Rleb_true; split; lra).
  assert (Q2 : fst (t1, as_flux mags v1) <= q + t0 <= fst (t2, as_flux mags v2)) by (simpl; lra).
  split.
  - rewrite (interp_line c' 0 0 k _ _ _ IN' N1 N2 Q2). unfold lerp; simpl. field. lra.
  - apply (interp_between c' 0 0 k _ _ _ IN' N1 N2 Q2).
Qed.
(** Before the first and after the last data time: the baseline. *)
Theorem C48_outside : forall i t0 mags b lc b' f c v q ts j out, make_lc i t0 false mags (Some b) = Ok (lc, b') -> data_of i f = Some c -> dget f b = Some v ->
  (forall p, In p c -> q < fst p - t0) \/ (forall p, In p c -> fst p - t0 < q) -> nth_error ts j = Some q -> lc_evaluate lc ts f = Ok out ->
  nth_error out j = Some (as_flux mags v).
Proof.
  intros i t0 mags b lc b' f c v q ts j out H HD HV HO HJ HE. destruct (made_value _ _ _ _ _ _ _ f c ts H HD) as (base & (v' & HB & ->) & E).
  rewrite E in HE. inversion HE; subst out. rewrite nth_error_map, HJ. simpl. f_equal. replace v' with v by congruence.
  destruct (make_lc_inv _ _ _ _ _ _ _ H) as (_ & _ & _ & _ & _ & (_ & HT & HN) & _). destruct (make_lc_stored _ _ _ _ _ _ _ H f) as [_ REST].
  destruct (REST c HD) as (NE & IN & _ & _). unfold wrapped. rewrite HN, HT. destruct c as [|p c]; [congruence|].
  replace (_ && _)%bool with false; auto. symmetry. apply andb_false_iff. rewrite !Rleb_false. destruct HO as [HO|HO].
  - left. specialize (HO p (or_introl eq_refl)). unfold first_x; simpl. lra.
  - right. destruct (last_x_In p c) as (l & EL & HI). specialize (HO l HI). unfold last_x. rewrite EL. lra.
Qed.
Theorem C48_no_baseline : forall i t0 lc b' f c q ts j out, make_lc i t0 false false None = Ok (lc, b') -> data_of i f = Some c ->
  (forall p, In p c -> q < fst p - t0) \/ (forall p, In p c -> fst p - t0 < q) -> nth_error ts j = Some q -> lc_evaluate lc ts f = Ok out ->
  nth_error out j = Some 0.
Proof.
  intros i t0 lc b' f c q ts j out H HD HO HJ HE. destruct (made_value _ _ _ _ _ _ _ f c ts H HD) as (base & -> & E).
  rewrite E in HE. inversion HE; subst out. rewrite nth_error_map, HJ. simpl. f_equal.
  destruct (make_lc_inv _ _ _ _ _ _ _ H) as (_ & _ & _ & _ & _ & (_ & HT & HN) & _). destruct (make_lc_stored _ _ _ _ _ _ _ H f) as [_ REST].
  destruct (REST c HD) as (NE & IN & _ & _). unfold wrapped. rewrite HN, HT. destruct c as [|p c]; [congruence|].
  replace (_ && _)%bool with false; auto. symmetry. apply andb_false_iff. rewrite !Rleb_false. destruct HO as [HO|HO].
  - left. specialize (HO p (or_introl eq_refl)). unfold first_x; simpl. lra.
  - right. destruct (last_x_In p c) as (l & EL & HI). specialize (HO l HI). unfold last_x. rewrite EL. lra.
Qed.
(** Evaluation fails exactly for filters without data; otherwise there is one value per time. *)
Theorem C48_defined : forall i t0 periodic mags baseline lc b' f ts, make_lc i t0 periodic mags baseline = Ok (lc, b') ->
  (data_of i f = None -> lc_evaluate lc ts f = Err ValueError) /\
  (forall c, data_of i f = Some c -> exists out, lc_evaluate lc ts f = Ok out /\ length out = length ts).
Proof.
  intros i t0 periodic mags baseline lc b' f ts H. split.
  - intros HN. destruct (make_lc_stored _ _ _ _ _ _ _ H f) as [CU _]. rewrite HN in CU. unfold lc_evaluate. now rewrite CU.
  - intros c HD. destruct (made_value _ _ _ _ _ _ _ f c ts H HD) as (base & _ & E). eexists. split; [exact E|apply map_length].
Qed.
(** A periodic curve repeats: shifting each query by any whole number of periods changes nothing. *)
Theorem C48_periodic : forall i t0 mags baseline lc b', make_lc i t0 true mags baseline = Ok (lc, b') ->
  exists p f0 c0, lc_period lc = Some p /\ data_of i f0 = Some c0 /\ p = last_x c0 - first_x c0 /\ 0 < p /\
  forall f ts (ks : R -> Z), lc_evaluate lc (map (fun t => t + IZR (ks t) * p) ts) f = lc_evaluate lc ts f.
Proof.
  intros i t0 mags baseline lc b' H. destruct (make_lc_inv _ _ _ _ _ _ _ H) as (d & cs & HP & HC & _ & (p & HV & EP) & _).
  destruct (validate_periodicity_inv _ _ _ _ _ HV) as (f0 & c0 & rest & EC & L2 & PE & PP & _).
  pose proof (F2_dget _ _ (fun a b => check_curve t0 mags a = Ok b) d cs f0 HC) as FG. pose proof (parse_dget i d f0 HP) as PD.
  rewrite EC in FG. simpl in FG. rewrite String.eqb_refl in FG. destruct (dget f0 d) as [tb|]; [|tauto]. simpl in PD. exists p, f0, (tb_rows tb).
  split; auto. split; [congruence|]. apply check_inv in FG. destruct FG as (_ & _ & CE). split.
  - rewrite PE, CE. assert (NE : tb_rows tb <> []) by (rewrite CE, map_length in L2; destruct (tb_rows tb); simpl in L2; [lia|discriminate]).
    rewrite first_x_map by auto. unfold last_x. rewrite (last_map_gen _ _ _ (tb_rows tb) (0, 0)) by auto. unfold first_x. simpl. ring.
  - split; auto. intros f ts ks. unfold lc_evaluate. destruct (dget f (lc_curves lc)); auto. rewrite EP.
    replace (map (fun t => Rmod t p) (map (fun t => t + IZR (ks t) * p) ts)) with (map (fun t => Rmod t p) ts); auto.
    rewrite map_map. apply map_ext. intros t. symmetry. now apply Rmod_shift.
Qed.
(** ... and passes through its data: every data point except the last (which repeats the first), at every cycle. *)
Theorem C48_periodic_at_data : forall i t0 mags baseline lc b' f c p t v (k : Z) ts j out, make_lc i t0 true mags baseline = Ok (lc, b') ->
  lc_period lc = Some p -> data_of i f = Some c -> lc_t0 lc = first_x c -> last_x c - first_x c = p ->
  In (t, v) c -> t < last_x c -> nth_error ts j = Some (t - lc_t0 lc + IZR k * p) -> lc_evaluate lc ts f = Ok out ->
  nth_error out j = Some (as_flux mags v).
Proof.
  intros i t0 mags baseline lc b' f c p t v k ts j out H HP HD HT HL HI HX HJ HE. destruct (made_value _ _ _ _ _ _ _ f c ts H HD) as (base & _ & E).
  rewrite E in HE. inversion HE; subst out. rewrite nth_error_map, HJ. simpl. f_equal.
  destruct (make_lc_stored _ _ _ _ _ _ _ H f) as [_ REST]. destruct (REST c HD) as (NE & IN & _ & _). unfold wrapped. rewrite HP.
  destruct c as [|p0 c]; [congruence|].
  assert (LO : first_x (p0 :: c) <= t).
  { unfold first_x; simpl. destruct HI as [->|HI]; [simpl; lra|]. apply (in_map fst) in HI. simpl in HI. pose proof (increasing_head _ _ _ IN HI). lra. }
  rewrite Rmod_shift by lra. rewrite Rmod_small by lra.
  replace (_ && _)%bool with true by (symmetry; rewrite andb_true_iff, !Rleb_true; split; lra).
  replace (t - lc_t0 lc + lc_t0 lc) with (fst (t, as_flux mags v)) by (simpl; ring).
  change (as_flux mags v) with (snd (t, as_flux mags v)) at 2. apply interp_knot.
  - unfold xs. rewrite map_map. exact IN.
  - apply in_map_iff. exists (t, v). auto.
Qed.
(** Rejected inputs. *)
Theorem C48_rejected : forall i t0 periodic mags baseline,
  (forall f c k a b, data_of i f = Some c -> nth_error (xs c) k = Some a -> nth_error (xs c) (S k) = Some b -> b <= a ->
     exists e, make_lc i t0 periodic mags baseline = Err e) /\
  (i = LOther -> make_lc i t0 periodic mags baseline = Err TypeError) /\
  (forall n rows, i = LArray n rows -> n <> 3%nat -> make_lc i t0 periodic mags baseline = Err ValueError) /\
  (forall f b, data_of i f <> None -> baseline = Some b -> dget f b = None -> exists e, make_lc i t0 periodic mags baseline = Err e).
Proof.
  intros i t0 periodic mags baseline. split; [|split; [|split]].
  - intros f c k a b HD HA HB LE. destruct (make_lc i t0 periodic mags baseline) as [[lc b']|e] eqn:E; eauto. exfalso.
    destruct (make_lc_stored _ _ _ _ _ _ _ E f) as [_ REST]. destruct (REST c HD) as (_ & IN & _). pose proof (increasing_nth _ k (S k) _ _ IN HA HB ltac:(lia)). lra.
  - intros ->. reflexivity.
  - intros n rows -> HN. unfold make_lc, lc_parse. apply Nat.eqb_neq in HN. now rewrite HN.
  - intros f b HD -> HB. destruct (make_lc i t0 periodic mags (Some b)) as [[lc b']|e] eqn:E; eauto. exfalso.
    destruct (data_of i f) as [c|] eqn:EC; [|congruence]. destruct (made_value _ _ _ _ _ _ _ f c [] E EC) as (base & (v & HV & _) & _). congruence.
Qed.
(** What is accepted (non-periodic): sorted, non-empty 2- or 3-column curves with complete baselines. *)
Theorem C48_accepted : forall d t0 mags baseline,
  (forall f t, In (f, t) d -> (tb_cols t = 2 \/ tb_cols t = 3)%nat /\ tb_rows t <> [] /\ increasing (xs (tb_rows t))) ->
  (forall f b, baseline = Some b -> In f (dkeys d) -> In f (dkeys b)) ->
  exists lc b', make_lc (LDict d) t0 false mags baseline = Ok (lc, b').
Proof.
  intros d t0 mags baseline HD HB. unfold make_lc. cbn [lc_parse bind].
  assert (X : exists cs, check_curves t0 mags d = Ok cs /\ Forall2 (fun a b => fst a = fst b /\ check_curve t0 mags (snd a) = Ok (snd b)) d cs).
  { assert (G : forall acc, exists l, fold_res (fun acc ft => bind (check_curve t0 mags (snd ft)) (fun c => Ok (acc ++ [(fst ft, c)]))) acc d = Ok (acc ++ l)).
    { clear HB. induction d as [|[f t] d IH]; intros acc; simpl; [exists []; now rewrite app_nil_r|].
      destruct (HD f t (or_introl eq_refl)) as (HC & _ & HI).
      assert (E : exists c, check_curve t0 mags t = Ok c).
      { unfold check_curve. replace (_ || _)%bool with true by (symmetry; rewrite orb_true_iff, !Nat.eqb_eq; auto). simpl.
        apply positive_diffs in HI. rewrite HI. simpl. eauto. }
      destruct E as (c & E). rewrite E. simpl. destruct (IH ltac:(intros; apply (HD f0); right; auto) (acc ++ [(f, c)])) as (l & El).
      exists ((f, c) :: l). rewrite El, <- app_assoc. reflexivity. }
    destruct (G []) as (l & El). exists l. split; [exact El|]. destruct (fold_collect_dict _ _ _ _ _ _ El) as (l' & EE & F). simpl in EE. congruence. }
  destruct X as (cs & EC & F2). rewrite EC. cbn [bind].
  assert (HR : has_rows cs = true).
  { unfold has_rows. apply forallb_forall. intros [f c] HI. clear EC.
    assert (Y : exists t, In (f, t) d /\ check_curve t0 mags t = Ok c).
    { clear HD HB. induction F2 as [|[k a] [k' b] d' l' [E1 E2] F IH]; [destruct HI|]. simpl in E1, E2. destruct HI as [HI|HI].
      - inversion HI; subst. exists a. split; auto. left; auto.
      - destruct (IH HI) as (t & A & B). exists t. split; auto. right; auto. }
    destruct Y as (t & HT & HCk). apply check_inv in HCk. destruct HCk as (_ & _ & ->). destruct (HD f t HT) as (_ & NE & _).
    simpl. rewrite map_length. destruct (tb_rows t); [congruence|reflexivity]. }
  rewrite HR. cbn [negb]. destruct baseline as [b|]; [|eauto].
  replace (forallb (fun fc => dmem (fst fc) b) cs) with true; [cbn [negb]; eauto|]. symmetry. apply forallb_forall. intros [f c] HI. apply dmem_true. apply (HB f b eq_refl).
  clear EC HR HD HB. induction F2 as [|[k a] [k' b0] d' l' [E1 E2] F IH]; [destruct HI|]. simpl in E1. simpl. destruct HI as [HI|HI]; [inversion HI; subst; auto|right; auto].
Qed.
