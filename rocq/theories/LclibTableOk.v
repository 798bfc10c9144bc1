(** C100 continued: which tables are accepted and which refused, and whole files. *)
From Coq Require Import Reals String Ascii List Bool Arith ZArith Lia Lra Permutation.
From Verif Require Import Base BaseFacts RealBase PassbandModel ObsTableModel SedModel NoiseModel.
From Verif Require LclibModel.
From Verif Require Import TemplateModel TemplateProps TemplateBands LclibTable LclibTableProps LclibTableMore.
Import ListNotations.
Open Scope list_scope.
Open Scope R_scope.

Definition known_class (t : table) : Prop :=
  dget "RECUR_CLASS" (t_meta t) = None \/
  exists s, class_of t s /\ In s ["PERIODIC"; "RECUR-PERIODIC"; "RECUR-NONPERIODIC"; "NON-RECUR"; ""]%string.
Lemma known_class_spec : forall t, known_class t <-> exists p, recur_class (t_meta t) = Some p.
Proof.
  intros t. unfold known_class, class_of, recur_class. destruct (dget "RECUR_CLASS" (t_meta t)) as [[s|d]|].
  - split.
    + intros [|(s' & E & HI)]; [discriminate|]. inversion E; subst s'. simpl in HI. destruct HI as [<-|[<-|[<-|[<-|[<-|[]]]]]]; simpl; eauto.
    + intros (p & H). right. exists s. split; auto. simpl. destruct (String.eqb s "PERIODIC") eqn:E1; [apply String.eqb_eq in E1; subst; auto|].
      destruct (String.eqb s "RECUR-PERIODIC") eqn:E2; [apply String.eqb_eq in E2; subst; auto|]. simpl in H.
      destruct (String.eqb s "RECUR-NONPERIODIC") eqn:E3; [apply String.eqb_eq in E3; subst; auto|].
      destruct (String.eqb s "NON-RECUR") eqn:E4; [apply String.eqb_eq in E4; subst; auto|]. destruct (String.eqb s "") eqn:E5; [apply String.eqb_eq in E5; subst; tauto|discriminate].
  - split; [intros [|(s' & E & _)]; discriminate|intros (p & H); discriminate].
  - split; [eauto|auto].
Qed.
Lemma all_nums : forall l : list cell, (forall i, (i < length l)%nat -> exists r, nth_error l i = Some (CNum r)) -> exists rs, l = map CNum rs.
Proof.
  induction l as [|c l IH]; intros H; [exists []; auto|]. destruct (H 0%nat ltac:(simpl; lia)) as (r & E). simpl in E. inversion E; subst c.
  destruct IH as (rs & ->). { intros i L. apply (H (S i)). simpl. lia. } exists (r :: rs). reflexivity.
Qed.
Lemma mask_map : forall A B (g : A -> B) m l, mask_list m (map g l) = map g (mask_list m l).
Proof. intros A B g m. induction m as [|b m IH]; intros [|a l]; simpl; auto. destruct b; simpl; now rewrite IH. Qed.
(** Every row has a number in the time column and in the columns of the filters kept. *)
Definition numeric (t : table) (filters : option (list string)) : Prop :=
  forall i f, has_row t i -> f = "time"%string \/ kept t filters f -> exists r, num_at t f i = Some r.
Lemma numeric_col : forall (t : table) filters f, well_formed t -> numeric t filters -> dmem "time" (t_cols t) = true -> f = "time"%string \/ kept t filters f ->
  exists rs, dget f (t_cols t) = Some (map CNum rs).
Proof.
  intros t filters f [ND (n & WF)] NU HT HF. destruct (dget_some _ _ _ HT) as (lt & ELT).
  assert (DF : dmem f (t_cols t) = true) by (destruct HF as [->|HF]; auto; apply dmem_true; apply HF). destruct (dget_some _ _ _ DF) as (l & EL).
  destruct (all_nums l) as (rs & E); [|exists rs; congruence]. intros i Li. destruct (NU i f) as (r & Hr); auto.
  - exists lt. split; auto. rewrite (WF _ _ (dget_In _ _ _ _ ELT)), <- (WF _ _ (dget_In _ _ _ _ EL)). auto.
  - exists r. unfold num_at in Hr. rewrite EL in Hr. destruct (nth_error l i) as [[s|q]|]; congruence.
Qed.
Lemma allclose_refl : forall l, allclose l l = true.
Proof.
  intros l. unfold allclose. rewrite Nat.eqb_refl. apply forallb_forall. intros [a b] HI. simpl.
  assert (a = b) as -> by (clear - HI; induction l as [|x l IH]; simpl in HI; [destruct HI|destruct HI as [X|HI]; [congruence|auto]]).
  apply isclose_nearly. unfold nearly. rewrite Rminus_diag_eq by auto. rewrite Rabs_R0. pose proof (Rabs_pos b).
  assert (0 < 1 / 10 ^ 8) by (apply Rdiv_lt_0_compat; [lra|apply pow_lt; lra]). assert (0 < 1 / 10 ^ 5) by (apply Rdiv_lt_0_compat; [lra|apply pow_lt; lra]).
  assert (0 <= 1 / 10 ^ 5 * Rabs b) by (apply Rmult_le_pos; lra). lra.
Qed.
Lemma isclose_self : forall a, isclose a a = true.
Proof. intros a. pose proof (allclose_refl [a]) as H. unfold allclose in H. simpl in H. rewrite andb_true_r in H. exact H. Qed.
Lemma check_all : forall cs t0, (forall f c, In (f, c) cs -> increasing (xs c)) -> check_curves t0 false (map (fun fc : string * curve => (fst fc, mkTab 2 (snd fc))) cs) = Ok (map (fun fc => (fst fc, shift t0 (snd fc))) cs).
Proof.
  intros cs t0 H. unfold check_curves.
  enough (G : forall acc, fold_res (fun acc ft => bind (check_curve t0 false (snd ft)) (fun c => Ok (acc ++ [(fst ft, c)]))) acc (map (fun fc : string * curve => (fst fc, mkTab 2 (snd fc))) cs) = Ok (acc ++ map (fun fc => (fst fc, shift t0 (snd fc))) cs)) by apply (G []).
  induction cs as [|[f c] cs IH]; intros acc; simpl; [now rewrite app_nil_r|].
  assert (E : check_curve t0 false (mkTab 2 c) = Ok (shift t0 c)).
  { unfold check_curve, shift. cbn [tb_cols tb_rows]. simpl. assert (X : increasing (xs c)) by (apply (H f); left; auto). apply positive_diffs in X. rewrite X. reflexivity. }
  rewrite E. simpl. rewrite IH by (intros; apply (H f0); right; auto). rewrite <- app_assoc. reflexivity.
Qed.
Lemma shift_facts : forall t0 c, c <> [] -> first_x (shift t0 c) = first_x c - t0 /\ last_x (shift t0 c) = last_x c - t0 /\ first_y (shift t0 c) = first_y c /\ last_y (shift t0 c) = last_y c /\
  length (shift t0 c) = length c /\ xs (shift t0 c) = map (fun x => x - t0) (xs c).
Proof.
  intros t0 c NE. unfold shift, first_x, last_x, first_y, last_y. rewrite !(last_map_gen _ _ _ c (0, 0)) by auto. rewrite map_length. unfold xs. rewrite !map_map.
  destruct c; [congruence|]. simpl. repeat split; auto.
Qed.
Lemma make_periodic : forall cs ts, cs <> [] -> (forall f c, In (f, c) cs -> xs c = ts /\ isclose (first_y c) (last_y c) = true) -> (2 <= length ts)%nat -> increasing ts ->
  exists lc b', make_lc (as_tabs cs) (hd 0 ts) true false None = Ok (lc, b').
Proof.
  intros cs ts NE HC L2 I. unfold make_lc. cbn [as_tabs lc_parse bind]. rewrite check_all by (intros f c HI; destruct (HC f c HI) as [-> _]; auto). cbn [bind].
  assert (CN : forall f c, In (f, c) cs -> c <> []) by (intros f c HI ->; destruct (HC f [] HI) as [E _]; rewrite <- E in L2; simpl in L2; lia).
  assert (EV : exists r, validate_periodicity (map (fun fc => (fst fc, shift (hd 0 ts) (snd fc))) cs) (hd 0 ts) = Ok r /\ fst (fst r) = map (fun fc => (fst fc, shift (hd 0 ts) (snd fc))) cs).
  { unfold validate_periodicity. rewrite map_map. destruct cs as [|[f0 c0] cs]; [congruence|]. cbn [map fst snd].
    destruct (HC f0 c0 (or_introl eq_refl)) as [X0 _]. pose proof (CN f0 c0 (or_introl eq_refl)) as N0. destruct (shift_facts (hd 0 ts) c0 N0) as (F1 & F2 & F3 & F4 & F5 & F6).
    assert (LC : length c0 = length ts) by (rewrite <- X0; unfold xs; now rewrite map_length). rewrite F5, LC.
    replace (length ts <? 2)%nat with false by (symmetry; apply Nat.ltb_ge; lia).
    assert (FX : first_x c0 = hd 0 ts) by (rewrite <- X0; unfold first_x, xs; destruct c0; [congruence|reflexivity]).
    assert (LX : last_x c0 = last ts 0). { rewrite <- X0. unfold last_x, xs. symmetry. apply (last_map_gen _ _ fst c0 (0, 0)). auto. }
    match goal with |- context [forallb ?P ?l] => assert (FA : forallb P l = true) end.
    { apply forallb_forall. intros c HI. rewrite F6, X0.
      assert (Y : exists f1 c1, In (f1, c1) ((f0, c0) :: cs) /\ c = shift (hd 0 ts) c1).
      { destruct HI as [<-|HI]; [exists f0, c0; split; [left; auto|auto]|]. apply in_map_iff in HI. destruct HI as ([f1 c1] & <- & HI). exists f1, c1. split; [right; auto|auto]. }
      destruct Y as (f1 & c1 & IA & ->). destruct (HC f1 c1 IA) as [X1 Y1]. destruct (shift_facts (hd 0 ts) c1 (CN _ _ IA)) as (_ & _ & G3 & G4 & _ & G6). rewrite G3, G4, G6, X1, Y1, allclose_refl. reflexivity. }
    rewrite FA. cbn [negb]. cbv zeta. rewrite F1, F2, FX, LX.
    assert (PP : 0 < last ts 0 - hd 0 ts).
    { destruct ts as [|a [|b ts]]; simpl in L2; try lia. rewrite last_cons2 by discriminate. assert (a < b) by (apply (increasing_head _ _ _ I); left; auto).
      pose proof (inc_bounds (b :: ts) b (increasing_tail _ _ I) (or_introl eq_refl)). simpl hd. lra. }
    replace (Rleb _ 0) with false by (symmetry; apply Rleb_false; lra). replace (hd 0 ts - hd 0 ts) with 0 by lra. rewrite isclose_self. eexists. split; [reflexivity|]. reflexivity. }
  destruct EV as ([[cs1 t1] p] & -> & EF). simpl in EF. subst cs1. cbn [bind fst snd].
  match goal with |- context [has_rows ?X] => assert (HR : has_rows X = true) end.
  { unfold has_rows. apply forallb_forall. intros fc HI. apply in_map_iff in HI. destruct HI as ([f c] & <- & HI). cbn [snd]. unfold shift. rewrite map_length. pose proof (CN _ _ HI). destruct c; [congruence|reflexivity]. }
  rewrite HR. cbn [negb]. eauto.
Qed.
Lemma inc_app : forall l x, increasing l -> (forall y, In y l -> y < x) -> increasing (l ++ [x]).
Proof.
  induction l as [|a l IH]; intros x HI HX; simpl; [auto|]. apply increasing_cons; [|apply IH; [eapply increasing_tail; eauto|intros; apply HX; right; auto]].
  intros y Hy. apply in_app_iff in Hy. destruct Hy as [Hy|[<-|[]]]; [eapply increasing_head; eauto|apply HX; left; auto].
Qed.
(** A table is accepted if it has a time column and a filter to keep, numbers in these columns, source rows in
    increasing order of time (at least one; at least two and no forced epoch if it is periodic), and a known class. *)
Theorem C100_accepted : forall ord (t : table) forced filters, well_formed t -> only_permutes ord ->
  In "time"%string (dkeys (t_cols t)) -> (exists f, kept t filters f) -> numeric t filters -> known_class t ->
  (forall i k x y, has_time t i x -> has_time t k y -> (i < k)%nat -> x < y) ->
  (exists i x, has_time t i x) -> (is_periodic t -> forced = None /\ exists i k x y, has_time t i x /\ has_time t k y /\ (i < k)%nat) ->
  exists lc, from_lclib_table ord t forced filters = Ok lc.
Proof.
  intros ord t forced filters WF HO HT (f0 & HK0) NU KC ORD (i0 & x0 & HX0) PER. apply dmem_true in HT. unfold from_lclib_table. rewrite HT. cbn [negb]. cbv zeta.
  set (fs := lib_filters ord (t_cols t) filters).
  assert (KF : forall f, In f fs <-> kept t filters f) by (intros f; apply filters_kept; auto).
  replace (length fs =? 0)%nat with false by (symmetry; apply Nat.eqb_neq; apply KF in HK0; destruct fs; [destruct HK0|simpl; lia]).
  assert (COL : forall f, f = "time"%string \/ In f fs -> exists rs, dget f (t_cols t) = Some (map CNum rs)) by (intros f HF; apply (numeric_col t filters); auto; rewrite <- KF; auto).
  assert (SP : exists base d, split_types fs (t_cols t) = Ok (base, d)).
  { unfold split_types. destruct (dget "type" (t_cols t)) as [ty|] eqn:ET; [|eauto]. cbv zeta. destruct (existsb negb (map is_obs ty)) eqn:EX; [|simpl; eauto].
    destruct (collect_ok _ (base_of (mask_cols (map negb (map is_obs ty)) (t_cols t))) fs) as (b & ->); [|simpl; eauto]. intros f HF. unfold base_of, column. rewrite dget_mcols.
    destruct (COL f (or_intror HF)) as (rs & E). rewrite E. simpl. rewrite mask_map.
    assert (LR : length ty = length rs). { destruct WF as [_ (n & WF)]. rewrite <- (map_length CNum rs), (WF _ _ (dget_In _ _ _ _ E)), (WF _ _ (dget_In _ _ _ _ ET)). reflexivity. }
    assert (NEM : mask_list (map negb (map is_obs ty)) rs <> []).
    { clear - EX LR. revert rs LR. induction ty as [|c ty IH]; intros [|r rs] LR; simpl in *; try discriminate. destruct (is_obs c); simpl in *; [apply IH; auto|discriminate]. }
    destruct (mask_list _ rs) as [|r rest]; [congruence|]. simpl. eauto. }
  destruct SP as (base & d & SP). rewrite SP. cbn [bind]. destruct (split_inv ord t filters base d WF HO HT SP) as (BK & BS & SRC).
  assert (CD : forall f, f = "time"%string \/ In f fs -> exists rs, column d f = Ok (map CNum rs) /\ src_nums t f rs).
  { intros f HF. destruct (COL f HF) as (rs & E). exists (mask_list (mask_of t) rs). unfold column. rewrite <- SRC, E. simpl. unfold src_nums, src. rewrite E, mask_map. split; auto. split; auto. apply dmem_true. apply dget_keys. congruence. }
  destruct (CD "time"%string (or_introl eq_refl)) as (ts & CT & ST). rewrite CT. cbn [bind]. rewrite col_nums_ok. cbn [bind].
  assert (NE : ts <> []). { intros ->. assert (X : In x0 []) by (apply (times_rows t [] x0 ST); eauto). destruct X. }
  assert (INC : increasing ts).
  { assert (PW : forall i j a b, nth_error ts i = Some a -> nth_error ts j = Some b -> (i < j)%nat -> a < b).
    { intros i j a b A B L. destruct (row_back _ _ _ _ ST A) as (ia & _ & SA & XA & RA). destruct (row_back _ _ _ _ ST B) as (ib & _ & SB & XB & RB). apply (ORD ia ib); try (split; auto).
      destruct (le_lt_dec ib ia) as [LE|]; auto. exfalso. assert (MONO : forall m u v, (u <= v)%nat -> (rank m u <= rank m v)%nat) by (clear; induction m as [|q m IH]; intros [|u] [|v] LE; simpl; try lia; specialize (IH u v ltac:(lia)); lia).
      specialize (MONO (mask_of t) _ _ LE). lia. }
    clear - PW. induction ts as [|a ts IH]; [exact I|]. apply increasing_cons; [|apply IH; intros i j u v A B L; apply (PW (S i) (S j) u v A B); lia].
    intros x Hx. apply In_nth_error in Hx. destruct Hx as (n & Hn). apply (PW 0%nat (S n) a x eq_refl Hn). lia. }
  assert (T0 : exists t0, (match forced with None => min_list ts | Some x => Ok x end) = Ok t0 /\ (forced = None -> t0 = hd 0 ts)).
  { destruct forced as [x|]; [exists x; split; auto; discriminate|]. destruct (min_list ts) as [m|] eqn:EM; [|destruct ts; [congruence|discriminate]]. exists m. split; auto. intros _. apply min_hd; auto. }
  destruct T0 as (t0 & -> & T0). cbn [bind].
  assert (CV : forall f, In f fs -> exists ms, lib_curve d f = Ok (combine ts (map mag2flux ms)) /\ length ms = length ts).
  { intros f HF. destruct (CD f (or_intror HF)) as (ms & CM & SM). exists ms. split; [|eapply src_len; eauto]. unfold lib_curve. rewrite CT. cbn [bind]. rewrite col_nums_ok. cbn [bind]. rewrite CM. cbn [bind]. rewrite col_nums_ok. reflexivity. }
  destruct (collect_ok _ (lib_curve d) fs) as (cs & EC); [intros f HF; destruct (CV f HF) as (ms & E & _); eauto|]. rewrite EC. cbn [bind].
  pose proof (filters_NoDup ord t filters WF HO) as ND. destruct (collect_inv _ _ _ _ ND EC) as (CK & CG). fold fs in ND, CK, CG.
  assert (CC : forall f c, In (f, c) cs -> exists ms, c = combine ts (map mag2flux ms) /\ length ms = length ts).
  { intros f c HI. assert (HF : In f fs) by (rewrite <- CK; apply (in_map fst) in HI; exact HI). destruct (CV f HF) as (ms & E & L). exists ms. split; auto.
    destruct (CG f HF) as (a & EA & DA). rewrite <- CK in ND. rewrite (In_dget _ _ _ _ ND HI) in DA. congruence. }
  assert (CX : forall f c, In (f, c) cs -> xs c = ts) by (intros f c HI; destruct (CC f c HI) as (ms & -> & L); apply xs_combine; rewrite map_length; lia).
  assert (CN : cs <> []) by (intros ->; apply KF in HK0; rewrite <- CK in HK0; destruct HK0).
  apply known_class_spec in KC. destruct KC as (periodic & EP). rewrite EP. destruct (not_periodic_class t periodic EP) as [P1 P2].
  destruct periodic.
  - destruct (PER (P1 eq_refl)) as (FN & i & k & x & y & HX & HY & LT). specialize (T0 FN). subst t0.
    assert (L2 : (2 <= length ts)%nat).
    { assert (A : In x ts) by (apply (times_rows t ts); eauto). assert (B : In y ts) by (apply (times_rows t ts); eauto). pose proof (ORD _ _ _ _ HX HY LT). destruct ts as [|u [|v ts]]; simpl in *; try lia. destruct A as [<-|[]]. destruct B as [<-|[]]. lra. }
    unfold wrap_curves.
    match goal with |- context [existsb ?P cs] => assert (EE : existsb P cs = false) end.
    { apply not_true_is_false. intros X. apply existsb_exists in X. destruct X as ([f c] & HI & E). apply Nat.eqb_eq in E. simpl in E. pose proof (CX f c HI) as X. destruct c; [|discriminate]. simpl in X. congruence. }
    rewrite EE. match goal with |- context [forallb ?P cs] => destruct (forallb P cs) eqn:EF end.
    + cbn [bind]. destruct (make_periodic cs ts CN) as (lc & b' & E); auto.
      { intros f c HI. split; [eapply CX; eauto|]. rewrite forallb_forall in EF. apply (EF (f, c) HI). }
      unfold as_tabs in E. rewrite E. simpl. eauto.
    + cbv zeta. cbn [bind]. set (e := last ts 0 + (last ts 0 - hd 0 ts) / INR (length ts - 1)). set (cs2 := map (fun fc : string * list (R * R) => (fst fc, snd fc ++ [(e, first_y (snd fc))])) cs).
      assert (EX : last ts 0 < e).
      { unfold e. assert (0 < last ts 0 - hd 0 ts). { destruct ts as [|a [|b ts]]; simpl in L2; try lia. rewrite last_cons2 by discriminate. assert (a < b) by (apply (increasing_head _ _ _ INC); left; auto).
          pose proof (inc_bounds (b :: ts) b (increasing_tail _ _ INC) (or_introl eq_refl)). simpl hd. lra. }
        assert (0 < INR (length ts - 1)) by (apply lt_0_INR; lia). assert (0 < (last ts 0 - hd 0 ts) / INR (length ts - 1)) by (apply Rdiv_lt_0_compat; auto). lra. }
      destruct (make_periodic cs2 (ts ++ [e])) as (lc & b' & E).
      * unfold cs2. destruct cs; [congruence|discriminate].
      * intros f c HI. unfold cs2 in HI. apply in_map_iff in HI. destruct HI as ([f1 c1] & X & HI). cbn [fst snd] in X. inversion X; subst f c. pose proof (CX _ _ HI) as XC. split.
        -- unfold xs in *. rewrite map_app, XC. reflexivity.
        -- unfold first_y, last_y. rewrite last_last. destruct c1; [simpl in XC; congruence|]. simpl. apply isclose_self.
      * rewrite app_length. simpl. lia.
      * apply inc_app; auto. intros y' Hy'. pose proof (inc_bounds ts y' INC Hy'). lra.
      * replace (hd 0 (ts ++ [e])) with (hd 0 ts) in E by (destruct ts; [congruence|reflexivity]). unfold as_tabs in E. rewrite E. simpl. eauto.
  - cbn [bind].
    destruct (C48_accepted (map (fun fc : string * curve => (fst fc, mkTab 2 (snd fc))) cs) t0 false (Some base)) as (lc & b' & E).
    + intros f tb HI. apply in_map_iff in HI. destruct HI as ([f1 c1] & X & HI). simpl in X. inversion X; subst f tb. cbn [tb_cols tb_rows]. pose proof (CX _ _ HI) as XC. split; auto. split; [intros ->; simpl in XC; congruence|]. rewrite XC; auto.
    + intros f b Hb Hf. inversion Hb; subst b. rewrite BK. fold fs. rewrite <- CK. unfold dkeys in Hf. rewrite map_map in Hf. exact Hf.
    + rewrite E. simpl. eauto.
Qed.
(** What is refused: a table without time column, without a filter to keep, of an unknown class, without source
    row, with source rows out of order, and a periodic table with one source row or with a forced epoch other than zero
    and its first source row's time. *)
Theorem C100_refused : forall ord (t : table) forced filters, well_formed t -> only_permutes ord ->
  (~ In "time"%string (dkeys (t_cols t)) -> from_lclib_table ord t forced filters = Err ValueError) /\
  ((forall f, ~ kept t filters f) -> from_lclib_table ord t forced filters = Err ValueError) /\
  (~ known_class t -> exists e, from_lclib_table ord t forced filters = Err e) /\
  ((forall i x, ~ has_time t i x) -> exists e, from_lclib_table ord t forced filters = Err e) /\
  (forall i k x y, has_time t i x -> has_time t k y -> (i < k)%nat -> y <= x -> exists e, from_lclib_table ord t forced filters = Err e) /\
  (is_periodic t -> (forall i k x y, has_time t i x -> has_time t k y -> i = k) -> exists e, from_lclib_table ord t forced filters = Err e) /\
  (is_periodic t -> forall x a, forced = Some x -> x <> 0 -> first_time t a -> 1 / 10 ^ 8 < Rabs (a - x) -> exists e, from_lclib_table ord t forced filters = Err e).
Proof.
  intros ord t forced filters WF HO.
  assert (FAIL : forall P : Prop, (forall lc, from_lclib_table ord t forced filters = Ok lc -> ~ P) -> P -> exists e, from_lclib_table ord t forced filters = Err e).
  { intros P HP HH. destruct (from_lclib_table ord t forced filters) as [lc|e] eqn:E; eauto. exfalso. eapply HP; eauto. }
  repeat match goal with |- _ /\ _ => split end.
  - intros HN. unfold from_lclib_table. apply dmem_false in HN. rewrite HN. reflexivity.
  - intros HN. unfold from_lclib_table. destruct (negb _); auto. cbv zeta. destruct (lib_filters ord (t_cols t) filters) as [|f fs] eqn:EF; auto.
    exfalso. apply (HN f). apply (filters_kept ord); auto. rewrite EF. left; auto.
  - apply FAIL. intros lc H NK. apply NK. open_table H WF HO. apply known_class_spec. exists periodic. apply M.
  - apply FAIL. intros lc H NT. open_table H WF HO. destruct (md_increasing _ _ _ _ _ _ _ _ _ _ M (keys_ne _ _ _ _ _ _ H FK)) as (_ & NE).
    destruct (proj1 (times_rows t ts0 (hd 0 ts0) (md_times _ _ _ _ _ _ _ _ _ _ M)) (hd_In _ NE)) as (i & Hi). apply (NT i _ Hi).
  - intros i k x y HX HY LT. apply FAIL. intros lc H LE. pose proof (C100_in_order _ _ _ _ _ _ _ _ _ WF HO H HX HY LT). lra.
  - intros P. apply FAIL. intros lc H ONE. destruct (C100_period _ _ _ _ _ WF HO H P) as (p & a & b & n & _ & FT & LT & (l & ND & EL & <-) & L2 & _).
    destruct l as [|i [|k l]]; simpl in L2; try lia. destruct (proj1 (EL i) (or_introl eq_refl)) as [R1 S1]. destruct (proj1 (EL k) (or_intror (or_introl eq_refl))) as [R2 S2].
    open_table H WF HO. pose proof (md_times _ _ _ _ _ _ _ _ _ _ M) as [HM E].
    assert (NT : forall i, has_row t i -> row_source t i -> exists x, num_at t "time" i = Some x).
    { intros i1 (lt & ELT & L) HS. apply source_mask in HS; [|exists lt; auto]. unfold src in E. rewrite ELT in E. destruct (nth_error lt i1) as [c|] eqn:EN; [|apply nth_error_None in EN; lia].
      pose proof (mask_rank _ _ _ _ _ HS EN) as X. rewrite E, nth_error_map in X. destruct (nth_error ts0 _) as [r|]; [|discriminate]. simpl in X. inversion X; subst c. exists r. unfold num_at. now rewrite ELT, EN. }
    destruct (NT i R1 S1) as (x & X1). destruct (NT k R2 S2) as (y & Y1). assert (i = k) by (apply (ONE i k x y); split; auto). subst k. inversion ND. apply H2. left; auto.
  - intros P x a -> NZ FA. apply FAIL. intros lc H BIG. destruct (C100_forced _ _ _ _ _ WF HO H) as [_ F2]. destruct (F2 P) as (a' & FA' & [(_ & LE)|(Z & _)]); [|auto].
    assert (a' = a) as -> by (eapply first_time_unique; eauto). lra.
Qed.
(** ** Whole files *)
Definition epoch_of (i : forced_in) (k : nat) : option R :=
  match i with FNone => None | FScalar x => Some x | FArray l => nth_error l k end.
Lemma fold_tables : forall A B (F : A -> result B) l acc r, fold_res (fun acc a => bind (F a) (fun b => Ok (acc ++ [b]))) acc l = Ok r ->
  exists q, r = acc ++ q /\ Forall2 (fun a b => F a = Ok b) l q.
Proof.
  intros A B F l. induction l as [|a l IH]; intros acc r H; simpl in H; [inversion H; exists []; rewrite app_nil_r; auto|].
  destruct (F a) as [b|] eqn:E; [|discriminate]. simpl in H. destruct (IH _ _ H) as (q & -> & HQ). exists (b :: q). rewrite <- app_assoc. split; auto.
Qed.
(** The light curves of a file are those of its tables, one for one and in order, each with its own epoch; an array of
    epochs of another length is refused, and so is a file without light curves. *)
Theorem C100_file : forall parse ord lines forced filters,
  (forall lcs, from_lclib_file parse ord lines forced filters = Ok lcs ->
    exists tables, LclibModel.read_lclib R parse lines = Ok tables /\ tables <> [] /\ length lcs = length tables /\
      (forall l, forced = FArray l -> length l = length tables) /\
      forall k t, nth_error tables k = Some t -> exists lc, nth_error lcs k = Some lc /\ from_lclib_table ord t (epoch_of forced k) filters = Ok lc) /\
  (LclibModel.read_lclib R parse lines = Ok [] -> from_lclib_file parse ord lines forced filters = Err ValueError) /\
  (forall tables l, LclibModel.read_lclib R parse lines = Ok tables -> forced = FArray l -> length l <> length tables -> from_lclib_file parse ord lines forced filters = Err ValueError).
Proof.
  intros parse ord lines forced filters. unfold from_lclib_file. split; [|split].
  - intros lcs H. destruct (LclibModel.read_lclib R parse lines) as [tables|]; [|discriminate]. cbn [bind] in H. exists tables. split; auto.
    assert (NE : tables <> []) by (intros ->; discriminate). split; auto.
    destruct (forced_list (length tables) forced) as [t0s|] eqn:EF; [|destruct tables; discriminate].
    assert (FA : length t0s = length tables /\ (forall l, forced = FArray l -> length l = length tables) /\ forall k, (k < length tables)%nat -> nth_error t0s k = Some (epoch_of forced k)).
    { unfold forced_list in EF. destruct forced as [|x|l].
      - inversion EF; subst. rewrite repeat_length. split; auto. split; [discriminate|]. intros k L. apply nth_error_repeat; auto.
      - inversion EF; subst. rewrite repeat_length. split; auto. split; [discriminate|]. intros k L. apply nth_error_repeat; auto.
      - destruct (length l =? length tables)%nat eqn:E; [|discriminate]. apply Nat.eqb_eq in E. inversion EF; subst. rewrite map_length. split; auto. split; [intros l' X; inversion X; subst; auto|].
        intros k L. rewrite nth_error_map. simpl. destruct (nth_error l k) eqn:EN; auto. apply nth_error_None in EN. lia. }
    destruct FA as (LT & FL & FN). destruct tables as [|tb tables]; [congruence|]. cbn [bind] in H. apply fold_tables in H. destruct H as (q & -> & HQ). cbn [app].
    split; [|split; auto].
    + assert (X : length (combine (tb :: tables) t0s) = length q) by (clear - HQ; induction HQ; simpl; auto). rewrite <- X, combine_length, LT. lia.
    + intros k t Hk. assert (HC : nth_error (combine (tb :: tables) t0s) k = Some (t, epoch_of forced k)).
      { apply nth_combine; auto. apply FN. apply nth_error_Some. congruence. }
      clear - HQ HC. revert HC. generalize (epoch_of forced k). intros e. revert k. induction HQ as [|a b l q E HQ IH]; intros [|k] HC; simpl in HC; try discriminate; [inversion HC; subst a; exists b; auto|]. apply (IH k HC).
  - intros ->. reflexivity.
  - intros tables l -> -> NL. cbn [bind]. destruct tables as [|tb tables]; auto. unfold forced_list. apply Nat.eqb_neq in NL. rewrite NL. reflexivity.
Qed.
(** Every table the reader returns is well formed. *)
Definition good_dict (m : dict (list cell)) : Prop := NoDup (dkeys m).
Lemma append_good : forall col x (m m' : dict (list cell)), good_dict m -> LclibModel.append_to R col x m = Ok m' -> good_dict m'.
Proof.
  intros col x m m' G H. unfold LclibModel.append_to in H. destruct (dget col m); [|discriminate]. inversion H. now apply NoDup_dset.
Qed.
Lemma row_good : forall parse cols key value (m m' : dict (list cell)), good_dict m -> LclibModel.add_row R parse cols key value m = Ok m' -> good_dict m'.
Proof.
  intros parse cols key value m m' G H. unfold LclibModel.add_row in H. destruct (LclibModel.append_to R "type" (LclibModel.CText key) m) as [m1|] eqn:E1; [|discriminate].
  cbn [bind] in H. cbv zeta in H. apply append_good in E1; auto. destruct (negb _); [discriminate|]. revert m1 E1 H.
  induction (combine cols (LclibModel.split_ws value)) as [|[c v] l IH]; intros m1 G1 H; simpl in H; [inversion H; subst; auto|].
  destruct (dget c m1) eqn:ED; [|discriminate]. destruct (parse v) as [r|]; [|discriminate]. destruct (LclibModel.append_to R c (LclibModel.CNum r) m1) as [m2|] eqn:E2; [|discriminate].
  cbn [bind] in H. apply append_good in E2; auto. eapply IH; eauto.
Qed.
Lemma table_good : forall m meta (t : table), good_dict m -> LclibModel.make_table R m meta = Ok t -> well_formed t.
Proof.
  intros m meta t G H. unfold LclibModel.make_table in H. destruct (LclibModel.equal_lengths R m) eqn:E; [|discriminate]. inversion H; subst t. split; [exact G|].
  simpl. destruct m as [|[k c] m]; [exists 0%nat; intros k c []|]. exists (length c). simpl in E. rewrite forallb_forall in E.
  intros k' c' [X|HI]; [inversion X; auto|]. specialize (E _ HI). apply Nat.eqb_eq in E. exact E.
Qed.
Definition good_state (st : LclibModel.lstate R) : Prop := good_dict (LclibModel.l_model R st) /\ forall t, In t (LclibModel.l_curves R st) -> well_formed t.
Lemma handle_good : forall parse st key value st', good_state st -> LclibModel.handle R parse st key value = Ok st' -> good_state st'.
Proof.
  intros parse st key value st' [G1 G2] H. unfold LclibModel.handle in H. cbv zeta in H. cbn [LclibModel.l_cols LclibModel.l_curves LclibModel.l_meta LclibModel.l_model LclibModel.l_par LclibModel.l_doc] in H.
  match type of H with (if ?b then _ else _) = _ => destruct b end; [inversion H; split; auto|].
  match type of H with (if ?b then _ else _) = _ => destruct b end; [inversion H; split; auto|].
  match type of H with (if ?b then _ else _) = _ => destruct b end; [inversion H; split; auto|].
  match type of H with (if ?b then _ else _) = _ => destruct b end.
  { destruct (LclibModel.id_is _ _); [|discriminate]. destruct (LclibModel.make_table R (LclibModel.l_model R st) (LclibModel.l_meta R st)) as [t|] eqn:E; [|discriminate]. cbn [bind] in H. inversion H. split; auto.
    cbn [LclibModel.l_curves]. intros t' HI. apply in_app_iff in HI. destruct HI as [HI|[<-|[]]]; auto. eapply table_good; eauto. }
  match type of H with (if ?b then _ else _) = _ => destruct b end.
  { destruct (_ =? 0)%nat; [discriminate|]. inversion H. split; auto. cbn [LclibModel.l_model]. assert (X : good_dict (dset "type" [] (LclibModel.l_model R st))) by (now apply NoDup_dset).
    revert X. generalize (dset "type" [] (LclibModel.l_model R st)). clear. induction (LclibModel.l_cols R st) as [|c l IH]; intros m X; simpl; auto. apply IH. now apply NoDup_dset. }
  match type of H with (if ?b then _ else _) = _ => destruct b end.
  { destruct (LclibModel.add_row R parse (LclibModel.l_cols R st) key value (LclibModel.l_model R st)) as [m|] eqn:E; [|discriminate]. cbn [bind] in H. inversion H. split; auto. eapply row_good; eauto. }
  match type of H with (if ?b then _ else _) = _ => destruct b end; [inversion H; split; auto|].
  match type of H with (if ?b then _ else _) = _ => destruct b end.
  { destruct (negb _); [discriminate|]. inversion H. split; auto. }
  inversion H. split; auto.
Qed.
Theorem C100_read_well_formed : forall parse lines tables (t : table), LclibModel.read_lclib R parse lines = Ok tables -> In t tables -> well_formed t.
Proof.
  intros parse lines tables t H HI. unfold LclibModel.read_lclib in H. destruct (fold_res _ _ lines) as [st|] eqn:E; [|discriminate]. cbn [bind] in H. inversion H; subst tables. clear H.
  assert (G : good_state (LclibModel.l_init R)) by (split; [constructor|intros t' []]). revert E HI. generalize dependent (LclibModel.l_init R). induction lines as [|line lines IH]; intros st0 G E HI; simpl in E.
  - inversion E; subst. apply G; auto.
  - destruct (LclibModel.l_step R parse st0 line) as [st1|] eqn:ES; [|discriminate]. cbn [bind] in E. apply (IH st1); auto.
    unfold LclibModel.l_step in ES. destruct (LclibModel.lex line) as [[k v]|]; [eapply handle_good; eauto|congruence].
Qed.
(** The band fluxes of the model: when light curve number k is drawn, an observation in filter f made at the time of a
    source row of table k, counted from the reference epoch and moved by t0, has the flux of that row. *)
Theorem C100_model_flux : forall parse ord lines forced filters lcs tables node (st : gst) (ps : params) k (t : table) lc ts fs t0,
  from_lclib_file parse ord lines forced filters = Ok lcs -> LclibModel.read_lclib R parse lines = Ok tables -> nth_error tables k = Some t -> nth_error lcs k = Some lc ->
  only_permutes ord -> ~ is_periodic t -> dget node st = Some ps -> dget "selected_lightcurve" ps = Some (PNum (INR k)) -> dget "t0" ps = Some (PNum t0) ->
  length fs = length ts -> (forall f, In f fs -> kept t filters f) ->
  exists out, multi_bands node lcs ts fs st = Ok out /\ length out = length ts /\
    forall j f i x m, nth_error fs j = Some f -> row_source t i -> num_at t "time" i = Some x -> num_at t f i = Some m ->
      nth_error ts j = Some (x - lc_t0 lc + t0) -> nth_error out j = Some (mag2flux m).
Proof.
  intros parse ord lines forced filters lcs tables node st ps k t lc ts fs t0 H HR HK HL HO NP HP HS HT LF KF.
  destruct (proj1 (C100_file parse ord lines forced filters) lcs H) as (tables' & HR' & _ & _ & _ & NTH). assert (tables' = tables) as -> by congruence.
  destruct (NTH k t HK) as (lc' & HL' & HF). assert (lc' = lc) as -> by congruence. pose proof (C100_read_well_formed _ _ _ _ HR (nth_error_In _ _ HK)) as WF.
  rewrite (C48_selected _ _ ts fs _ _ _ _ HP HS HL). pose proof HF as HF2. destruct (table_inv _ _ _ _ _ WF HO HF2) as (periodic & ts0 & t1 & base & cs & cs' & M & FK).
  destruct (md_lc _ _ _ _ _ _ _ _ _ _ M) as (b' & ML). assert (K : dkeys cs' = dkeys cs). { pose proof (md_wrap _ _ _ _ _ _ _ _ _ _ M) as MW. destruct periodic; [eapply wrap_keys; eauto|congruence]. }
  destruct (C48_template_entries _ _ _ _ _ _ _ node ts fs st ps t0 ML HP HT LF) as (out & EO & LO & ENT).
  { intros f Hf. rewrite as_tabs_data. apply dget_keys. rewrite K. apply M. auto. }
  exists out. split; auto. split; auto. intros j f i x m Hj SI HX HM HTJ. destruct (ENT j _ f HTJ Hj) as (v & EV & FL). rewrite EV.
  unfold flux_at in FL. replace (x - lc_t0 lc + t0 - t0) with (x - lc_t0 lc) in FL by lra.
  pose proof (C100_at_rows ord t _ filters lc f i x m [x - lc_t0 lc] 0%nat [v] WF HO HF NP (KF f (nth_error_In _ _ Hj)) SI HX HM eq_refl FL) as X. simpl in X. exact X.
Qed.
(** ** Examples *)
Definition ex_cols : dict (list cell) :=
  [("type", [CText "T"; CText "S"; CText "S"; CText "S"]); ("time", map CNum [0; 1; 2; 4]); ("g", map CNum [20; 10; 11; 12]); ("r", map CNum [30; 13; 14; 13])]%string.
Definition ex_once : table := LclibModel.mkTable R ex_cols [("RECUR_CLASS", LclibModel.MText "NON-RECUR")]%string.
Definition ex_again : table := LclibModel.mkTable R ex_cols [("RECUR_CLASS", LclibModel.MText "PERIODIC")]%string.
Lemma ex_well_formed : well_formed ex_once /\ well_formed ex_again.
Proof.
  assert (X : NoDup (dkeys ex_cols)) by (repeat constructor; simpl; intuition discriminate).
  assert (Y : exists n, forall k c, In (k, c) ex_cols -> length c = n) by (exists 4%nat; intros k c HI; simpl in HI; intuition (match goal with E : (_, _) = (_, _) |- _ => inversion E end; reflexivity)).
  split; split; auto.
Qed.
Lemma ex_time : forall (t : table) i x, t_cols t = ex_cols -> (has_time t i x <-> (i = 1%nat /\ x = 1) \/ (i = 2%nat /\ x = 2) \/ (i = 3%nat /\ x = 4)).
Proof.
  intros t i x E. unfold has_time, row_source, num_at. rewrite E. simpl. destruct i as [|[|[|[|i]]]]; simpl.
  5: { split; [intros [X _]; destruct i; discriminate|intros [[X _]|[[X _]|[X _]]]; discriminate]. }
  1: { split; [intros [X _]; discriminate|intros [[X _]|[[X _]|[X _]]]; discriminate]. }
  all: split; [intros [_ X]; inversion X; auto|intros [[X ->]|[[X ->]|[X ->]]]; try discriminate; auto].
Qed.
Example C100_example : forall ord t filters, only_permutes ord -> (t = ex_once \/ t = ex_again) -> (filters = None \/ filters = Some ["r"; "z"]%string) ->
  exists lc, from_lclib_table ord t None filters = Ok lc /\ lc_t0 lc = 1.
Proof.
  intros ord t filters HO HT HF. assert (EC : t_cols t = ex_cols) by (destruct HT as [-> | ->]; auto). assert (WF : well_formed t) by (destruct HT as [-> | ->]; apply ex_well_formed).
  destruct (C100_accepted ord t None filters WF HO) as (lc & E).
  - rewrite EC. simpl. auto.
  - exists "r"%string. unfold kept. rewrite EC. simpl. repeat split; auto; try discriminate. destruct HF as [-> | ->]; simpl; auto.
  - intros i f (l & EL & L) HF2. unfold kept in HF2. unfold num_at. rewrite EC in *. simpl in EL. inversion EL; subst l. simpl in L. assert (f = "time" \/ f = "g" \/ f = "r")%string as HFF.
    { destruct HF2 as [->|(HI & N1 & N2 & _)]; auto. simpl in HI. destruct HI as [<-|[<-|[<-|[<-|[]]]]]; auto; congruence. }
    destruct HFF as [-> |[-> | ->]]; simpl; destruct i as [|[|[|[|i]]]]; simpl; eauto; lia.
  - right. destruct HT as [-> | ->]; [exists "NON-RECUR"%string|exists "PERIODIC"%string]; split; try reflexivity; simpl; auto 6.
  - intros i k x y HX HY L. apply (ex_time t) in HX; auto. apply (ex_time t) in HY; auto. destruct HX as [[-> ->]|[[-> ->]|[-> ->]]]; destruct HY as [[-> ->]|[[-> ->]|[-> ->]]]; lia || lra.
  - exists 1%nat, 1. apply ex_time; auto.
  - intros _. split; auto. exists 1%nat, 2%nat, 1, 2. split; [apply ex_time; auto|]. split; [apply ex_time; auto|auto].
  - exists lc. split; auto. destruct (C100_epoch _ _ _ _ WF HO E) as [(i & Hi) MIN]. pose proof (MIN 1%nat 1 ltac:(apply ex_time; auto)). apply ex_time in Hi; auto. destruct Hi as [[_ X]|[[_ X]|[_ X]]]; rewrite X in *; lra.
Qed.
