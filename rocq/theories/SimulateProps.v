(** Properties C38-C40: simulated light curves. *)
From Coq Require Import Reals String Ascii List Bool Arith ZArith Lia Lra Permutation.
From Verif Require Import Base BaseFacts RealBase ObsTableModel ObsTableProps SimulateModel.
Import ListNotations.
Open Scope R_scope.

Lemma exact_many_inv : forall ball o ras decs radius tmin tmax res r, ball_spec ball -> tinv o ->
  radius_of o radius = Some r -> 0 <= r <= 180 ->
  range_search ball o (QArray ras) (QArray decs) radius tmin tmax = Ok res ->
  exists l, res = Many l /\ length l = length ras /\ length decs = length ras /\
    forall k ra dec, nth_error ras k = Some ra -> nth_error decs k = Some dec ->
      exists lk, nth_error l k = Some lk /\ NoDup lk /\
        forall i, In i lk <-> matches o ra dec r (bound_of tmin k) (bound_of tmax k) i.
Proof.
  intros ball o ras decs radius tmin tmax res r HB HT ER HR H.
  destruct (range_many _ _ _ _ _ _ _ _ _ HB HT ER HR H) as (l & [[E _]|(a & _ & _ & E)] & L1 & L2 & S); [|discriminate]. exists l. auto.
Qed.

(** ** C40: time windows *)
(** One entry per object: its t0 (never None here). *)
Definition t0_list (t : t0arg) (l : list R) : Prop :=
  (exists r, t = T0Scalar r /\ l = [r]) \/ t = T0Arr (map Some l).
Lemma arr_shift_some : forall l d, arr_shift (map Some l) d = Ok (map (fun r => r + d) l).
Proof. induction l; intros; simpl; auto. now rewrite IHl. Qed.
Theorem C40_windows : forall t l before after, t0_list t l ->
  get_time_windows t (Some [before; after]) =
    Ok (option_map (fun b => map (fun r => r - b) l) before, option_map (fun a => map (fun r => r + a) l) after).
Proof.
  intros t l before after H. unfold get_time_windows.
  assert (X : forall sg off, shift_side (map Some l) sg off = Ok (option_map (fun b => map (fun r => r + sg * b) l) off)).
  { intros sg [d|]; simpl; auto. rewrite arr_shift_some. auto. }
  assert (Y : bind (shift_side (map Some l) (-1) before) (fun s => bind (shift_side (map Some l) 1 after) (fun e => Ok (s, e))) =
     Ok (option_map (fun b => map (fun r => r - b) l) before, option_map (fun a => map (fun r => r + a) l) after)).
  { rewrite !X. simpl. f_equal. f_equal.
    - destruct before; simpl; auto. f_equal. apply map_ext. intros; lra.
    - destruct after; simpl; auto. f_equal. apply map_ext. intros; lra. }
  destruct H as [(r & -> & ->)| ->]; exact Y.
Qed.
Theorem C40_missing : forall t off, t = T0None \/ off = None -> get_time_windows t off = Ok (None, None).
Proof. intros t off [-> | ->]; simpl; auto. now destruct t. Qed.
Theorem C40_bad_offset : forall t off, t <> T0None -> length off <> 2%nat -> get_time_windows t (Some off) = Err ValueError.
Proof. intros t off HT HL. destruct t; [tauto| |]; simpl; destruct off as [|? [|? [|? ?]]]; simpl in *; auto; lia. Qed.
(** A window of an observation: inside the interval around its object's t0. *)
Theorem C40_inside : forall t l before after s e k r x, t0_list t l ->
  get_time_windows t (Some [Some before; Some after]) = Ok (s, e) -> nth_error l k = Some r ->
  (forall lo, bound_of (targ_of s) k = Some lo -> lo <= x) /\ (forall hi, bound_of (targ_of e) k = Some hi -> x <= hi) <->
  r - before <= x <= r + after.
Proof.
  intros t l before after s e k r x HT H HK. rewrite (C40_windows _ _ _ _ HT) in H. injection H as <- <-. simpl.
  rewrite !nth_error_map, HK. simpl. split.
  - intros [A B]. split; [apply A|apply B]; auto.
  - intros [A B]. split; intros y Y; injection Y as <-; auto.
Qed.
(** A model without t0 has no window (documented), but only for one sample: with several samples t0 is an array of
    None and the subtraction raises. *)
Theorem C40_no_t0_many_samples_refuted : forall n b a, (1 <= n)%nat ->
  get_time_windows (T0Arr (repeat None n)) (Some [Some b; a]) = Err TypeError.
Proof. intros [|n] b a H; [lia|]. reflexivity. Qed.
Example C40_example : get_time_windows (T0Arr [Some 10; Some 20]) (Some [Some 3; None]) = Ok (Some [7; 17], None).
Proof.
  rewrite (C40_windows _ [10; 20]); [|right; auto]. simpl. do 4 f_equal; [|f_equal]; lra.
Qed.

(** ** Specification of the result layout *)
(** The observations (object, survey, table row): those of object 0, then of object 1, ...; inside an object
    survey 0, survey 1, ...; [rows i s] are the table rows of survey s used for object i. *)
Definition observations (rows : nat -> nat -> list nat) (N S : nat) : list (nat * nat * nat) :=
  flat_map (fun i => flat_map (fun s => map (fun j => (i, s, j)) (rows i s)) (seq 0 S)) (seq 0 N).
(** [survey[col]] at row j. *)
Definition item_at (o : obstable) (col : string) (j : nat) : option cell :=
  match ob_getitem o col with Ok c => nth_error c j | Err _ => None end.
Definition in_survey {A} (surveys : list obstable) (s : nat) (f : obstable -> option A) (d : A) : A :=
  match nth_error surveys s with Some o => match f o with Some a => a | None => d end | None => d end.
(** Time, filter and saved column of row j of survey s. *)
Definition row_time (surveys : list obstable) (s j : nat) : R := in_survey surveys s (fun o => num_at o "time" j) 0.
Definition row_filter (surveys : list obstable) (s j : nat) : string :=
  in_survey surveys s (fun o => option_map text_of (item_at o "filter" j)) ""%string.
Definition row_saved (surveys : list obstable) (col : string) (s j : nat) : ncell :=
  in_survey surveys s (fun o => option_map ncell_of (item_at o col j)) NNone.

(** ** Accumulating columns *)
Definition col {V} (k : string) (d : dict (list V)) : list V := match dget k d with Some l => l | None => [] end.
Lemma col_dext : forall V k k' (v : list V) d, col k (dext k' v d) = if String.eqb k k' then (col k d ++ v)%list else col k d.
Proof.
  intros. unfold dext, col. destruct (String.eqb k k') eqn:E.
  - apply String.eqb_eq in E. subst. now rewrite dget_dset_same.
  - rewrite dget_dset_other; auto. intros ->. now rewrite String.eqb_refl in E.
Qed.
Lemma dmem_dext : forall V k k' (v : list V) d, dmem k d = true -> dmem k (dext k' v d) = true.
Proof.
  intros. unfold dext, dmem in *. destruct (String.eqb k k') eqn:E.
  - apply String.eqb_eq in E. subst. now rewrite dget_dset_same.
  - rewrite dget_dset_other; auto. intros ->. now rewrite String.eqb_refl in E.
Qed.
Lemma pick_spec : forall A (l : list A) index r d, pick l index = Ok r ->
  r = map (fun j => nth j l d) index /\ forall j, In j index -> (j < length l)%nat.
Proof.
  induction index as [|i index IH]; simpl; intros r d H; [injection H as <-; split; auto; tauto|].
  destruct (nth_error l i) eqn:E; [|discriminate]. destruct (pick l index) eqn:EP; [|discriminate]. simpl in H. injection H as <-.
  destruct (IH _ d eq_refl) as [-> HI]. split.
  - f_equal. symmetry. now apply nth_error_nth.
  - intros j [<-|HJ]; auto. apply nth_error_Some. congruence.
Qed.
Lemma pick_ok : forall A (l : list A) index, (forall j, In j index -> (j < length l)%nat) -> exists r, pick l index = Ok r.
Proof.
  induction index as [|i index IH]; simpl; intros H; eauto.
  destruct (nth_error l i) eqn:E; [|apply nth_error_None in E; specialize (H i (or_introl eq_refl)); lia].
  destruct IH as (r & ->); auto. simpl. eauto.
Qed.
Lemma mask_list_map : forall A B (f : A -> B) m l, mask_list m (map f l) = map f (mask_list m l).
Proof. induction m as [|b m IH]; intros [|a l]; simpl; auto. destruct b; simpl; now rewrite IH. Qed.
Lemma mask_list_filter : forall A (p : A -> bool) l, mask_list (map p l) l = filter p l.
Proof. induction l as [|a l IH]; simpl; auto. destruct (p a); now rewrite IH. Qed.
Lemma zip_with_map : forall A B C D (f : A -> B -> C) (g : D -> A) (h : D -> B) l, zip_with f (map g l) (map h l) = map (fun x => f (g x) (h x)) l.
Proof. induction l; simpl; auto. now rewrite IHl. Qed.

Section Sim.
Context {St PV : Type}.
Variable ball : list vec3 -> vec3 -> R -> list nat.
Notation physical := (@physical St).
Notation samples := (@samples St PV).

(** The physical model, pointwise: the band flux of an observation depends on the object's state, the survey, the time
    and the filter; the error on survey, flux and row; the mask on the state and the time. *)
Record pointwise (m : physical) (flux : nat -> St -> R -> string -> R) (error : nat -> R -> nat -> R) (keep : St -> R -> bool) : Prop := {
  pw_eval : forall s ts fs st fl, ph_eval m s ts fs st = Ok fl -> fl = zip_with (flux s st) ts fs;
  pw_error : forall s fl idx er, ph_error m s fl idx = Ok er -> er = zip_with (error s) fl idx;
  pw_mask : forall ts st, ph_mask m ts st = map (keep st) ts
}.

Lemma save_cols_spec : forall o idx fi save d d', fold_res (save_col o idx fi) d save = Ok d' -> NoDup save ->
  (forall k, ~ In k save -> col k d' = col k d) /\
  (forall k, In k save -> col k d' = (col k d ++ map (fun j => match item_at o k j with Some c => ncell_of c | None => NNone end) idx)%list) /\
  (forall k, dmem k d = true -> dmem k d' = true).
Proof.
  intros o idx fi. induction save as [|c save IH]; simpl; intros d d' H HN.
  { injection H as <-. split; [|split]; intros; tauto. }
  destruct (save_col o idx fi d c) as [d1|] eqn:E; [|discriminate].
  inversion HN as [|? ? HC HN']; subst. destruct (IH _ _ H HN') as (I1 & I2 & I3).
  assert (X : exists v, d1 = dext c v d /\ v = map (fun j => match item_at o c j with Some c => ncell_of c | None => NNone end) idx).
  { unfold save_col in E. destruct (ob_contains o c) eqn:EC.
    - apply C37_contains in EC. destruct EC as (cl & EC). rewrite EC in E. simpl in E. destruct fi; [discriminate|].
      destruct (pick cl idx) as [vs|] eqn:EP; [|discriminate]. simpl in E. injection E as <-. eexists. split; [reflexivity|].
      destruct (pick_spec _ _ _ _ (CNum 0) EP) as [-> HI]. rewrite map_map. apply map_ext_in. intros j HJ. unfold item_at. rewrite EC.
      rewrite (nth_error_nth' cl (CNum 0)); auto.
    - injection E as <-. eexists. split; [reflexivity|].
      assert (N : forall j, item_at o c j = None).
      { intros j. unfold item_at. destruct (ob_getitem o c) eqn:EG; auto. assert (ob_contains o c = true) by (apply C37_contains; eauto). congruence. }
      clear -N. induction idx; simpl; auto. now rewrite N, IHidx. }
  destruct X as (v & -> & ->). split; [|split].
  - intros k HK. rewrite I1 by tauto. rewrite col_dext. replace (String.eqb k c) with false; auto. symmetry. apply String.eqb_neq. intros ->. tauto.
  - intros k [<-|HK].
    + rewrite I1 by auto. rewrite col_dext, String.eqb_refl. auto.
    + rewrite I2 by auto. rewrite col_dext. replace (String.eqb k c) with false; auto. symmetry. apply String.eqb_neq. intros ->. tauto.
  - intros k HK. apply I3. now apply dmem_dext.
Qed.

(** One step: what survey s contributes for object i. *)
Section Step.
Variables (m : physical) (flux : nat -> St -> R -> string -> R) (error : nat -> R -> nat -> R) (keep : St -> R -> bool).
Hypothesis PW : pointwise m flux error keep.
Variables (draws : nat -> R) (use_mask : bool) (save : list string).
Hypothesis HS : NoDup save.
Hypothesis HD : forall k, In k save -> ~ In k base_cols.

Definition sel (o : obstable) (st : St) (found : list nat) : list nat :=
  if use_mask then filter (fun j => keep st (match num_at o "time" j with Some t => t | None => 0 end)) found else found.
Definition tm (o : obstable) (j : nat) : R := match num_at o "time" j with Some t => t | None => 0 end.
Definition fl (o : obstable) (j : nat) : string := match option_map text_of (item_at o "filter" j) with Some t => t | None => ""%string end.
Definition sv (o : obstable) (k : string) (j : nat) : ncell := match option_map ncell_of (item_at o k j) with Some t => t | None => NNone end.

Record step (o : obstable) (s i : nat) (st : St) (rows : list nat) (a a' : acc) : Prop := {
  sp_index : ac_index a' = (ac_index a ++ map (fun _ => i) rows)%list;
  sp_used : ac_used a' = (ac_used a + length rows)%nat;
  sp_mjd : col "mjd" (ac_nested a') = (col "mjd" (ac_nested a) ++ map (fun j => NNum (tm o j)) rows)%list;
  sp_filter : col "filter" (ac_nested a') = (col "filter" (ac_nested a) ++ map (fun j => NStr (fl o j)) rows)%list;
  sp_perfect : col "flux_perfect" (ac_nested a') = (col "flux_perfect" (ac_nested a) ++ map (fun j => NNum (flux s st (tm o j) (fl o j))) rows)%list;
  sp_err : col "fluxerr" (ac_nested a') = (col "fluxerr" (ac_nested a) ++ map (fun j => NNum (error s (flux s st (tm o j) (fl o j)) j)) rows)%list;
  sp_flux : col "flux" (ac_nested a') = (col "flux" (ac_nested a) ++
     zip_with (fun k j => let f := flux s st (tm o j) (fl o j) in NNum (f + error s f j * draws k)) (seq (ac_used a) (length rows)) rows)%list;
  sp_sidx : col "survey_idx" (ac_nested a') = (col "survey_idx" (ac_nested a) ++ map (fun _ => NIdx s) rows)%list;
  sp_save : forall k, In k save -> col k (ac_nested a') = (col k (ac_nested a) ++ map (sv o k) rows)%list;
  sp_keys : forall k, dmem k (ac_nested a) = true -> dmem k (ac_nested a') = true;
  sp_filt : forall j, In j rows -> exists f, item_at o "filter" j = Some f
}.

Lemma map_const_repeat : forall A B (x : B) (l : list A), map (fun _ => x) l = repeat x (length l).
Proof. induction l; simpl; congruence. Qed.
Lemma noisy_eq : forall used (f e : nat -> R) rows, noisy draws used (map f rows) (map e rows) =
  zip_with (fun k j => f j + e j * draws k) (seq used (length rows)) rows.
Proof.
  intros used f e rows. unfold noisy. rewrite map_length. revert used. induction rows as [|j rows IH]; intros; simpl; auto.
  now rewrite IH.
Qed.
Lemma map_zip_with : forall A B C D (g : C -> D) (f : A -> B -> C) a b, map g (zip_with f a b) = zip_with (fun x y => g (f x y)) a b.
Proof. induction a as [|x a IH]; intros [|y b]; simpl; auto. now rewrite IH. Qed.

Lemma one_survey_step : forall o s i st found re a total a' total', tinv o ->
  one_survey m draws use_mask save o s i st found re a total = Ok (a', total') ->
  step o s i st (sel o st found) a a' /\ total' = (total + length (sel o st found))%nat.
Proof.
  intros o s i st found re a total a' total' HT H. unfold one_survey in H.
  destruct (ob_getitem o "time") as [ct|] eqn:ET; [|discriminate]. cbn [bind] in H.
  destruct (ob_getitem o "filter") as [cf|] eqn:EF; [|discriminate]. cbn [bind] in H. cbv zeta in H.
  assert (NT : forall j, num_at o "time" j = option_map num_of (nth_error ct j)).
  { intros j. unfold num_at, cell_at. pose proof HT as TI.
    assert (HI : In "time"%string (columns (ob_frame o))) by (apply (ti_req _ TI); simpl; auto).
    unfold ob_getitem in ET. destruct (dget "time" (f_cols (ob_frame o))) eqn:EG; [congruence|].
    exfalso. unfold columns in HI. apply dget_None in EG. tauto. }
  set (rows := sel o st found).
  match type of H with bind ?X _ = _ => destruct X as [[[idx ts] fs]|] eqn:EX end; [|discriminate]. cbn [bind] in H.
  assert (X : idx = rows /\ ts = map (tm o) rows /\ fs = map (fl o) rows /\ forall j, In j rows -> exists f, item_at o "filter" j = Some f).
  { destruct found as [|j0 found'].
    { injection EX as <- <- <-. assert (rows = []) as -> by (unfold rows, sel; destruct use_mask; reflexivity). repeat split; auto. intros j HJ; destruct HJ. }
    set (found := j0 :: found') in *. destruct (pick (map num_of ct) found) as [t1|] eqn:EP; [|discriminate]. cbn [bind] in EX. cbv zeta in EX.
    destruct (pick_spec _ _ _ _ 0 EP) as [-> HL]. rewrite map_length in HL.
    assert (TM : map (fun j => nth j (map num_of ct) 0) found = map (tm o) found).
    { apply map_ext_in. intros j HJ. unfold tm. rewrite NT. rewrite (nth_error_nth' ct (CNum 0)) by auto. simpl.
      change 0 with (num_of (CNum 0)) at 1. apply map_nth. }
    rewrite TM in EX.
    destruct (pick (map text_of cf) (if use_mask then mask_list (ph_mask m (map (tm o) found) st) found else found)) as [f1|] eqn:EP2; [|discriminate].
    cbn [bind] in EX. injection EX as <- <- <-.
    assert (EI : (if use_mask then mask_list (ph_mask m (map (tm o) found) st) found else found) = rows).
    { unfold rows, sel. destruct use_mask; auto. rewrite (pw_mask _ _ _ _ PW), map_map. apply mask_list_filter. }
    rewrite EI in *. split; auto. destruct (pick_spec _ _ _ _ ""%string EP2) as [EF1 HL2]. rewrite map_length in HL2. split; [|split].
    - unfold rows, sel. destruct use_mask; auto. rewrite (pw_mask _ _ _ _ PW). change (tm o j0 :: map (tm o) found') with (map (tm o) found). rewrite mask_list_map. f_equal. rewrite map_map. apply mask_list_filter.
    - rewrite EF1. apply map_ext_in. intros j HJ. unfold fl, item_at. rewrite EF.
      rewrite (nth_error_nth' cf (CStr "")) by auto. simpl. change ""%string with (text_of (CStr "")) at 1. apply map_nth.
    - intros j HJ. unfold item_at. rewrite EF. rewrite (nth_error_nth' cf (CStr "")) by auto. eauto. }
  destruct X as (-> & -> & -> & FOK). clear EX.
  destruct (ph_eval m s (map (tm o) rows) (map (fl o) rows) st) as [perfect|] eqn:EE; [|discriminate]. cbn [bind] in H.
  apply (pw_eval _ _ _ _ PW) in EE. rewrite zip_with_map in EE.
  destruct (ph_error m s perfect rows) as [errs|] eqn:ER; [|discriminate]. cbn [bind] in H.
  apply (pw_error _ _ _ _ PW) in ER. subst perfect.
  assert (ER' : errs = map (fun j => error s (flux s st (tm o j) (fl o j)) j) rows).
  { rewrite ER. rewrite <- (map_id rows) at 2. apply (zip_with_map _ _ _ _ (error s) (fun j => flux s st (tm o j) (fl o j)) (fun j => j)). }
  clear ER. subst errs. rewrite noisy_eq in H. rewrite !map_length in H.
  match type of H with bind (fold_res _ ?D _) _ = _ => set (d := D) in H end.
  destruct (fold_res (save_col o rows re) d save) as [d'|] eqn:EFR; [|discriminate]. cbn [bind] in H. injection H as <- <-.
  destruct (save_cols_spec _ _ _ _ _ _ EFR HS) as (S1 & S2 & S3). split; [|auto].
  assert (NB : forall k, In k base_cols -> ~ In k save) by (intros k H1 H2; apply (HD _ H2); auto).
  constructor; cbn [ac_index ac_used ac_nested].
  - now rewrite map_const_repeat.
  - auto.
  - rewrite S1 by (apply NB; simpl; auto). unfold d. rewrite !col_dext. cbn [String.eqb Ascii.eqb Bool.eqb]. now rewrite map_map.
  - rewrite S1 by (apply NB; simpl; auto). unfold d. rewrite !col_dext. cbn [String.eqb Ascii.eqb Bool.eqb]. now rewrite map_map.
  - rewrite S1 by (apply NB; simpl; auto 10). unfold d. rewrite !col_dext. cbn [String.eqb Ascii.eqb Bool.eqb]. now rewrite map_map.
  - rewrite S1 by (apply NB; simpl; auto 10). unfold d. rewrite !col_dext. cbn [String.eqb Ascii.eqb Bool.eqb]. now rewrite map_map.
  - rewrite S1 by (apply NB; simpl; auto 10). unfold d. rewrite !col_dext. cbn [String.eqb Ascii.eqb Bool.eqb]. now rewrite map_zip_with.
  - rewrite S1 by (apply NB; simpl; auto 10). unfold d. rewrite !col_dext. cbn [String.eqb Ascii.eqb Bool.eqb]. now rewrite map_const_repeat.
  - intros k HK. rewrite S2 by auto. f_equal.
    + unfold d. rewrite !col_dext. pose proof (HD _ HK) as HB. unfold base_cols in HB.
      repeat match goal with |- context [String.eqb k ?x] => replace (String.eqb k x) with false;
        [|symmetry; apply String.eqb_neq; intros ->; apply HB; simpl; tauto] end. auto.
    + apply map_ext. intros j. unfold sv. now destruct (item_at o k j).
  - intros k HK. apply S3. unfold d. now repeat apply dmem_dext.
  - exact FOK.
Qed.

(** ** Loops *)
Variables (surveys : list obstable) (sm : samples) (mat : list (list (list nat))).
Hypothesis HT : Forall tinv surveys.
Definition rowsel_ (i s : nat) : list nat :=
  match nth_error mat s, nth_error surveys s, nth_error (sm_states sm) i with
  | Some ms, Some o, Some st => match nth_error ms i with Some found => sel o st found | None => [] end
  | _, _, _ => []
  end.
Definition part (i k : nat) : list (nat * nat * nat) := flat_map (fun s => map (fun j => (i, s, j)) (rowsel_ i s)) (seq 0 k).
Definition sofar (i k : nat) : list (nat * nat * nat) := observations rowsel_ i (length surveys) ++ part i k.
Lemma part_S : forall i k, part i (S k) = (part i k ++ map (fun j => (i, k, j)) (rowsel_ i k))%list.
Proof. intros. unfold part. rewrite seq_S, flat_map_app. simpl. now rewrite app_nil_r. Qed.
Lemma sofar_S : forall i k, sofar i (S k) = (sofar i k ++ map (fun j => (i, k, j)) (rowsel_ i k))%list.
Proof. intros. unfold sofar. now rewrite part_S, app_assoc. Qed.
Lemma sofar_next : forall i, sofar i (length surveys) = sofar (S i) 0.
Proof.
  intros. unfold sofar, observations. rewrite seq_S, flat_map_app. simpl. rewrite !app_nil_r. f_equal.
Qed.
Definition pflux (st_ : list St) (x : nat * nat * nat) : R :=
  let '(i, s, j) := x in
  match nth_error st_ i with Some st => flux s st (row_time surveys s j) (row_filter surveys s j) | None => 0 end.
Definition perr (st_ : list St) (x : nat * nat * nat) : R := let '(i, s, j) := x in error s (pflux st_ x) j.

Record ainv (L : list (nat * nat * nat)) (a : acc) : Prop := {
  av_index : ac_index a = map (fun x => fst (fst x)) L;
  av_used : ac_used a = length L;
  av_mjd : col "mjd" (ac_nested a) = map (fun x => NNum (row_time surveys (snd (fst x)) (snd x))) L;
  av_filter : col "filter" (ac_nested a) = map (fun x => NStr (row_filter surveys (snd (fst x)) (snd x))) L;
  av_perfect : col "flux_perfect" (ac_nested a) = map (fun x => NNum (pflux (sm_states sm) x)) L;
  av_err : col "fluxerr" (ac_nested a) = map (fun x => NNum (perr (sm_states sm) x)) L;
  av_flux : col "flux" (ac_nested a) = zip_with (fun p x => NNum (pflux (sm_states sm) x + perr (sm_states sm) x * draws p)) (seq 0 (length L)) L;
  av_sidx : col "survey_idx" (ac_nested a) = map (fun x => NIdx (snd (fst x))) L;
  av_save : forall k, In k save -> col k (ac_nested a) = map (fun x => row_saved surveys k (snd (fst x)) (snd x)) L;
  av_keys : forall k, In k base_cols \/ In k save -> dmem k (ac_nested a) = true;
  av_filt : forall i s j, In (i, s, j) L -> exists o f, nth_error surveys s = Some o /\ item_at o "filter" j = Some f
}.
Lemma zip_with_app : forall A B C (f : A -> B -> C) a1 b1 a2 b2, length a1 = length b1 ->
  zip_with f (a1 ++ a2) (b1 ++ b2) = (zip_with f a1 b1 ++ zip_with f a2 b2)%list.
Proof. induction a1 as [|x a1 IH]; intros [|y b1] a2 b2 H; simpl in *; try discriminate; auto. rewrite IH; auto. Qed.
Lemma zip_with_map_r : forall A B C D (f : A -> B -> C) (g : D -> B) a b, zip_with f a (map g b) = zip_with (fun x y => f x (g y)) a b.
Proof. induction a as [|x a IH]; intros [|y b]; simpl; auto. now rewrite IH. Qed.
Lemma zip_with_ext : forall A B C (f g : A -> B -> C) a b, (forall x y, f x y = g x y) -> zip_with f a b = zip_with g a b.
Proof. induction a as [|x a IH]; intros [|y b] H; simpl; auto. rewrite H, IH; auto. Qed.

Lemma ainv_step : forall L i s o st a a', nth_error surveys s = Some o -> nth_error (sm_states sm) i = Some st ->
  ainv L a -> step o s i st (rowsel_ i s) a a' -> ainv (L ++ map (fun j => (i, s, j)) (rowsel_ i s)) a'.
Proof.
  intros L i s o st a a' EO ES I SP.
  assert (T : forall j, row_time surveys s j = tm o j) by (intros; unfold row_time, in_survey; rewrite EO; reflexivity).
  assert (F : forall j, row_filter surveys s j = fl o j) by (intros; unfold row_filter, in_survey; rewrite EO; reflexivity).
  assert (V : forall k j, row_saved surveys k s j = sv o k j) by (intros; unfold row_saved, in_survey; rewrite EO; reflexivity).
  assert (PF : forall j, pflux (sm_states sm) (i, s, j) = flux s st (tm o j) (fl o j)) by (intros; unfold pflux; rewrite ES, T, F; reflexivity).
  assert (PE : forall j, perr (sm_states sm) (i, s, j) = error s (flux s st (tm o j) (fl o j)) j) by (intros; unfold perr; rewrite PF; reflexivity).
  destruct I as [I1 I2 I3 I4 I5 I6 I7 I8 I9 I10 I11]. destruct SP as [S1 S2 S3 S4 S5 S6 S7 S8 S9 S10 S11].
  constructor.
  - rewrite S1, I1, map_app, map_map. auto.
  - rewrite S2, I2, app_length, map_length. auto.
  - rewrite S3, I3, map_app, map_map. f_equal. apply map_ext. intros j; simpl; now rewrite T.
  - rewrite S4, I4, map_app, map_map. f_equal. apply map_ext. intros j; simpl; now rewrite F.
  - rewrite S5, I5, map_app, map_map. f_equal. apply map_ext. intros j. now rewrite PF.
  - rewrite S6, I6, map_app, map_map. f_equal. apply map_ext. intros j. now rewrite PE.
  - rewrite S7, I7, app_length, seq_app, zip_with_app by now rewrite seq_length. f_equal. rewrite zip_with_map_r, map_length, I2.
    apply zip_with_ext. intros p j. cbv zeta. now rewrite PF, PE.
  - rewrite S8, I8, map_app, map_map. auto.
  - intros k HK. rewrite S9, I9, map_app, map_map by auto. f_equal. apply map_ext. intros j; simpl; now rewrite V.
  - auto.
  - intros i0 s0 j0 HI. apply in_app_iff in HI. destruct HI as [HI|HI]; eauto. apply in_map_iff in HI. destruct HI as (j1 & E & HJ).
    injection E as <- <- <-. destruct (S11 _ HJ) as (f & EF). eauto.
Qed.

Lemma one_object_inv : forall i st a a' total, nth_error (sm_states sm) i = Some st ->
  one_object ball m draws use_mask save surveys mat sm i st a = Ok (a', total) -> ainv (sofar i 0) a ->
  ainv (sofar i (length surveys)) a' /\ total = length (part i (length surveys)).
Proof.
  intros i st a a' total ES H I. unfold one_object in H.
  assert (G : forall ss pre a t, surveys = (pre ++ ss)%list -> ainv (sofar i (length pre)) a -> t = length (part i (length pre)) ->
    fold_res (fun at_ so => let '(a, total) := at_ in let '(s, o) := so in
      match nth_error mat s with
      | None => Err IndexError
      | Some ms => match nth_error ms i with
                   | None => Err IndexError
                   | Some found => one_survey m draws use_mask save o s i st found
                                   (raw_empty ball o (nth i (sm_ra sm) 0) (nth i (sm_dec sm) 0)) a total
                   end
      end) (a, t) (combine (seq (length pre) (length ss)) ss) = Ok (a', total) ->
    ainv (sofar i (length surveys)) a' /\ total = length (part i (length surveys))).
  { induction ss as [|o ss IH]; intros pre b t EQ IB ET HF; cbn [fold_res length seq combine] in HF.
    - injection HF as <- <-. rewrite EQ, app_nil_r. auto.
    - destruct (nth_error mat (length pre)) as [ms|] eqn:EM; [|discriminate].
      destruct (nth_error ms i) as [found|] eqn:EF; [|discriminate].
      match type of HF with match ?X with _ => _ end = _ => destruct X as [[b' t']|] eqn:EX end; [|discriminate].
      assert (EO : nth_error surveys (length pre) = Some o) by (rewrite EQ, nth_error_app2, Nat.sub_diag; auto).
      assert (TO : tinv o) by (rewrite Forall_forall in HT; apply HT; eapply nth_error_In; eauto).
      destruct (one_survey_step _ _ _ _ _ _ _ _ _ _ TO EX) as [SP ->].
      assert (ER : rowsel_ i (length pre) = sel o st found) by (unfold rowsel_; rewrite EM, EO, ES, EF; auto).
      rewrite <- ER in SP, HF. specialize (IH (pre ++ [o])%list b' (t + length (rowsel_ i (length pre)))%nat).
      rewrite app_length in IH. cbn [length] in IH. replace (length pre + 1)%nat with (S (length pre)) in IH by lia.
      apply IH; auto.
      + now rewrite <- app_assoc.
      + rewrite sofar_S. eapply ainv_step; eauto.
      + rewrite part_S, app_length, map_length. lia. }
  apply (G surveys []%list a 0%nat); auto.
Qed.

Definition count (i : nat) : nat := length (part i (length surveys)).
Lemma set_nth_length : forall A (l : list A) i x, length (set_nth i x l) = length l.
Proof. induction l; intros [|i] x; simpl; auto. Qed.
Lemma set_nth_same : forall A (l : list A) i x, (i < length l)%nat -> nth_error (set_nth i x l) i = Some x.
Proof. induction l; intros [|i] x H; simpl in *; try lia; auto. apply IHl. lia. Qed.
Lemma set_nth_other : forall A (l : list A) i j x, i <> j -> nth_error (set_nth i x l) j = nth_error l j.
Proof. induction l; intros [|i] [|j] x H; simpl in *; try lia; auto. Qed.
Lemma all_objects_inv : forall a res a' res' (l0 : list (@ocell PV)), dget "nobs" res = Some l0 ->
  all_objects ball m draws use_mask save surveys mat sm a res = Ok (a', res') -> ainv [] a ->
  ainv (observations rowsel_ (length (sm_states sm)) (length surveys)) a' /\
  (exists l, dget "nobs" res' = Some l /\ length l = length l0 /\ forall i, (i < length (sm_states sm))%nat -> nth_error l i = Some (ONat (count i))) /\
  (forall k, k <> "nobs"%string -> dget k res' = dget k res).
Proof.
  intros a res a' res' l0 EN H I. unfold all_objects in H.
  assert (G : forall ss pre a r l, sm_states sm = (pre ++ ss)%list -> ainv (sofar (length pre) 0) a ->
     dget "nobs" r = Some l -> length l = length l0 -> (forall i, (i < length pre)%nat -> nth_error l i = Some (ONat (count i))) ->
     (forall k, k <> "nobs"%string -> dget k r = dget k res) ->
     fold_res (fun ar ist => let '(a, res) := ar in let '(i, st) := ist in
      bind (one_object ball m draws use_mask save surveys mat sm i st a) (fun x =>
      let '(a', total) := x in
      match dget "nobs" res with
      | None => Err KeyError
      | Some l => if (i <? length l)%nat then Ok (a', dset "nobs" (set_nth i (ONat total) l) res)
                  else Err IndexError
      end)) (a, r) (combine (seq (length pre) (length ss)) ss) = Ok (a', res') ->
     ainv (sofar (length (sm_states sm)) 0) a' /\
     (exists l, dget "nobs" res' = Some l /\ length l = length l0 /\ forall i, (i < length (sm_states sm))%nat -> nth_error l i = Some (ONat (count i))) /\
     (forall k, k <> "nobs"%string -> dget k res' = dget k res)).
  { induction ss as [|st ss IH]; intros pre b r l EQ IB EB EL EI EK HF; cbn [fold_res length seq combine] in HF.
    - injection HF as <- <-. rewrite app_nil_r in EQ. rewrite EQ in *. eauto 10.
    - assert (ES : nth_error (sm_states sm) (length pre) = Some st) by (rewrite EQ, nth_error_app2, Nat.sub_diag; auto).
      destruct (one_object ball m draws use_mask save surveys mat sm (length pre) st b) as [[b' t]|] eqn:EO; [|discriminate]. cbn [bind] in HF.
      destruct (one_object_inv _ _ _ _ _ ES EO IB) as [IB' ->]. rewrite sofar_next in IB'. fold (count (length pre)) in HF.
      rewrite EB in HF. destruct (length pre <? length l)%nat eqn:EX; [|discriminate]. apply Nat.ltb_lt in EX.
      specialize (IH (pre ++ [st])%list b' (dset "nobs" (set_nth (length pre) (ONat (count (length pre))) l) r)
                     (set_nth (length pre) (ONat (count (length pre))) l)).
      rewrite app_length in IH. cbn [length] in IH. replace (length pre + 1)%nat with (S (length pre)) in IH by lia.
      apply IH; auto.
      + now rewrite <- app_assoc.
      + apply dget_dset_same.
      + now rewrite set_nth_length.
      + intros i Hi. destruct (Nat.eq_dec i (length pre)) as [->|N]; [now apply set_nth_same|].
        rewrite set_nth_other by auto. apply EI. lia.
      + intros k HK. rewrite dget_dset_other by auto. auto. }
  destruct (G (sm_states sm) []%list a res l0 eq_refl) as (R1 & R2); auto.
  - simpl. intros; lia.
  - unfold sofar, part in R1. simpl in R1. rewrite app_nil_r in R1. auto.
Qed.

End Step.

(** ** The whole run *)
Lemma col_init : forall save k, col k (nested_init save) = [].
Proof.
  intros save k. unfold nested_init.
  assert (G : forall save (d : dict (list ncell)), col k d = [] -> col k (fold_left (fun d c => dset c ([] : list ncell) d) save d) = []).
  { induction save0 as [|c save0 IH]; intros d H; simpl; auto. apply IH. unfold col in *.
    destruct (String.eqb k c) eqn:E.
    - apply String.eqb_eq in E. subst. now rewrite dget_dset_same.
    - rewrite dget_dset_other; auto. intros ->. now rewrite String.eqb_refl in E. }
  apply G. unfold col. destruct (dget k (map (fun k0 => (k0, [])) base_cols)) eqn:E; auto.
  apply dget_In in E. apply in_map_iff in E. destruct E as (x & E & _). congruence.
Qed.
Lemma keys_init : forall save k, In k base_cols \/ In k save -> dmem k (nested_init save) = true.
Proof.
  intros save k. unfold nested_init.
  assert (G : forall save d, dmem k d = true \/ In k save -> dmem k (fold_left (fun d c => dset c ([] : list ncell) d) save d) = true).
  { induction save0 as [|c save0 IH]; intros d H; simpl; [destruct H; tauto|]. apply IH. destruct H as [H|[->|H]]; auto.
    - left. unfold dmem in *. destruct (String.eqb k c) eqn:E.
      + apply String.eqb_eq in E. subst. now rewrite dget_dset_same.
      + rewrite dget_dset_other; auto. intros ->. now rewrite String.eqb_refl in E.
    - left. unfold dmem. now rewrite dget_dset_same. }
  intros H. apply G. destruct H as [H|H]; auto. left. unfold base_cols in H. simpl in H.
  repeat (destruct H as [<-|H]; [reflexivity|]). destruct H.
Qed.
Lemma all_matches_nth : forall surveys (sm : samples) lo hi mat, all_matches ball surveys sm lo hi = Ok mat ->
  length mat = length surveys /\
  forall s o, nth_error surveys s = Some o -> exists ms, nth_error mat s = Some ms /\
    range_search ball o (QArray (sm_ra sm)) (QArray (sm_dec sm)) None (targ_of lo) (targ_of hi) = Ok (Many ms).
Proof.
  intros surveys sm lo hi mat H. unfold all_matches in H.
  assert (G : forall ss acc mat, fold_res (fun l o => bind (range_search ball o (QArray (sm_ra sm)) (QArray (sm_dec sm)) None (targ_of lo) (targ_of hi))
                         (fun f => match f with Many x => Ok (l ++ [x])%list | One _ => Err TypeError end)) acc ss = Ok mat ->
    exists l, mat = (acc ++ l)%list /\ length l = length ss /\ forall s o, nth_error ss s = Some o -> exists ms, nth_error l s = Some ms /\
      range_search ball o (QArray (sm_ra sm)) (QArray (sm_dec sm)) None (targ_of lo) (targ_of hi) = Ok (Many ms)).
  { induction ss as [|o ss IH]; intros a mat0 HF; cbn [fold_res] in HF.
    - injection HF as <-. exists []. rewrite app_nil_r. split; auto. split; auto. intros [|s] o E; discriminate.
    - destruct (range_search ball o (QArray (sm_ra sm)) (QArray (sm_dec sm)) None (targ_of lo) (targ_of hi)) as [[x|x]|] eqn:ER; try discriminate. cbn [bind] in HF.
      destruct (IH _ _ HF) as (l & -> & L & P). exists (x :: l). rewrite <- app_assoc. split; auto. split; [simpl; lia|].
      intros [|s] o' E; simpl in *; [injection E as <-; eauto|eauto]. }
  destruct (G _ _ _ H) as (l & -> & L & P). simpl. auto.
Qed.

Lemma nth_error_ext_ : forall A (l1 l2 : list A), (forall i, nth_error l1 i = nth_error l2 i) -> l1 = l2.
Proof.
  induction l1 as [|a l1 IH]; intros [|b l2] H; auto; try (specialize (H 0%nat); discriminate).
  pose proof (H 0%nat) as H0. simpl in H0. injection H0 as ->. f_equal. apply IH. intros i. apply (H (S i)).
Qed.
Lemma flat_map_length_ext : forall A B C (f : A -> list B) (g : A -> list C) l, (forall x, length (f x) = length (g x)) ->
  length (flat_map f l) = length (flat_map g l).
Proof. induction l; intros H; simpl; auto. rewrite !app_length, H, IHl; auto. Qed.

(** What one run needs from its inputs. *)
Record run_ok (num : Z) (sm : samples) (surveys : list obstable) : Prop := {
  ro_states : length (sm_states sm) = Z.to_nat num;
  ro_ra : length (sm_ra sm) = Z.to_nat num;
  ro_dec : length (sm_dec sm) = Z.to_nat num;
  ro_tbl : Forall tinv surveys;   (* consistent tables: all those of the API ([tbl_inv]) and of the survey classes *)
  ro_rad : forall o, In o surveys -> exists r, radius_of o None = Some r /\ 0 <= r <= 180
}.
(** [rows i s]: the rows of survey s within its radius of object i, inside the object's time window, and
    kept by the model's mask if that is in use. *)
Definition rows_spec (sm : samples) (surveys : list obstable) (lo hi : option (list R)) (use_mask : bool)
    (keep : St -> R -> bool) (rows : nat -> nat -> list nat) : Prop :=
  forall i s st o ra dec r, nth_error (sm_states sm) i = Some st -> nth_error surveys s = Some o ->
    nth_error (sm_ra sm) i = Some ra -> nth_error (sm_dec sm) i = Some dec -> radius_of o None = Some r ->
    NoDup (rows i s) /\
    forall j, In j (rows i s) <->
      matches o ra dec r (bound_of (targ_of lo) i) (bound_of (targ_of hi) i) j /\
      (use_mask = true -> exists t, num_at o "time" j = Some t /\ keep st t = true).

Lemma simulate_inv : forall (m : physical) flux error keep draws num (sm : samples) surveys npass save params use_mask off r,
  ball_spec ball -> pointwise m flux error keep -> run_ok num sm surveys ->
  NoDup save -> (forall k, In k save -> ~ In k base_cols) ->
  simulate ball m draws num sm surveys npass save params use_mask off = Ok r ->
  exists lo hi rows res0, (0 < num)%Z /\ get_time_windows (sm_t0 sm) off = Ok (lo, hi) /\ rows_spec sm surveys lo hi use_mask keep rows /\
    ainv flux error draws save surveys sm (observations rows (Z.to_nat num) (length surveys)) (mkAcc (sr_nested r) (sr_index r) (length (sr_index r))) /\
    add_params sm params (object_dict (Z.to_nat num) sm) = Ok res0 /\
    dget "nobs" (sr_cols r) = Some (map (fun i => ONat (length (flat_map (fun s => rows i s) (seq 0 (length surveys))))) (seq 0 (Z.to_nat num))) /\
    (forall k, k <> "nobs"%string -> dget k (sr_cols r) = dget k res0) /\
    all_len (Z.to_nat num) (sr_cols r) = true /\ all_len (length (sr_index r)) (sr_nested r) = true.
Proof.
  intros m flux error keep draws num sm surveys npass save params use_mask off r HB PW RO HS HD H.
  unfold simulate in H. destruct (num <=? 0)%Z eqn:EZ; [discriminate|]. apply Z.leb_gt in EZ.
  destruct (negb (length surveys =? npass)%nat); [discriminate|].
  destruct ((1 <? length surveys)%nat && ph_bandflux m); [discriminate|]. cbv zeta in H.
  destruct (add_params sm params (object_dict (Z.to_nat num) sm)) as [res0|] eqn:EP; [|discriminate]. cbn [bind] in H.
  destruct (get_time_windows (sm_t0 sm) off) as [[lo hi]|] eqn:EW; [|discriminate]. cbn [bind fst snd] in H.
  destruct (all_matches ball surveys sm lo hi) as [mat|] eqn:EM; [|discriminate]. cbn [bind] in H.
  match type of H with bind ?X _ = _ => destruct X as [[a res]|] eqn:EO end; [|discriminate]. cbn [bind] in H.
  destruct (all_len (Z.to_nat num) res && all_len (length (ac_index a)) (ac_nested a)) eqn:EL; [|discriminate].
  injection H as <-. apply andb_true_iff in EL. destruct EL as [EL1 EL2]. destruct RO as [R1 R2 R3 R4 R5].
  assert (EN : exists l0, dget "nobs" res0 = Some l0).
  { destruct (dget "nobs" res0) eqn:E; eauto. exfalso. revert EP. unfold add_params.
    assert (G : forall ps d, dget "nobs" d <> None -> fold_res (fun d col => match sm_param sm col with
                         | None => Err KeyError | Some v => Ok (dset (undot col) (map OVal v) d) end) d ps = Ok res0 -> False).
    { induction ps as [|c ps IH]; intros d HN HF; cbn [fold_res] in HF; [injection HF as ->; tauto|].
      destruct (sm_param sm c); [|discriminate]. eapply IH; [|exact HF]. intros E2. apply dget_None in E2.
      apply HN. apply dget_None. intros HI. apply E2. clear -HI. revert HI. induction d as [|[k v] d IHd]; simpl; [tauto|].
      destruct (String.eqb (undot c) k); simpl; tauto. }
    intros HF. apply (G params (object_dict (Z.to_nat num) sm)); [|exact HF]. discriminate. }
  destruct EN as (l0 & EN).
  assert (I0 : ainv flux error draws save surveys sm [] (mkAcc (nested_init save) [] 0)).
  { constructor; cbn [ac_nested ac_index ac_used]; auto; try apply col_init. intros; apply col_init. intros; now apply keys_init. intros ? ? ? []. }
  destruct (all_objects_inv _ _ _ _ PW draws use_mask save HS HD surveys sm mat R4 _ _ _ _ _ EN EO I0) as (IA & (l & EL3 & LL & NL) & EK).
  rewrite R1 in *.
  exists lo, hi, (rowsel_ keep use_mask surveys sm mat), res0. split; auto. split; auto. split.
  - intros i s st o ra dec rad ES EO' ERA EDEC ERAD.
    destruct (all_matches_nth _ _ _ _ _ EM) as [LM PM]. destruct (PM _ _ EO') as (ms & EMS & ERS).
    assert (TO : tinv o) by (rewrite Forall_forall in R4; apply R4; eapply nth_error_In; eauto).
    destruct (R5 o) as (rad' & ERAD' & HRAD); [eapply nth_error_In; eauto|]. assert (rad' = rad) as -> by congruence.
    destruct (exact_many_inv _ _ _ _ _ _ _ _ _ HB TO ERAD HRAD ERS) as (l1 & E1 & L1 & L2 & SP). injection E1 as <-.
    destruct (SP _ _ _ ERA EDEC) as (lk & ELK & ND & IFF). unfold rowsel_. rewrite EMS, EO', ES, ELK. unfold sel.
    destruct use_mask.
    + split; [now apply NoDup_filter|]. intros j. rewrite filter_In, IFF. split.
      * intros [M K]. split; auto. intros _. destruct M as (a1 & a2 & t & _ & _ & ET & _). rewrite ET in K. eauto.
      * intros [M K]. split; auto. destruct (K eq_refl) as (t & -> & KT). auto.
    + split; auto. intros j. rewrite IFF. split; [intros M; split; auto; discriminate|tauto].
  - cbn [sr_cols sr_nested sr_index]. split; [|split; [auto|split; [|auto]]].
    + destruct IA as [I1 I2 I3 I4 I5 I6 I7 I8 I9 I10 I11]. constructor; cbn [ac_nested ac_index ac_used]; auto. rewrite I1. now rewrite map_length.
    + rewrite EL3. f_equal. unfold all_len in EL1. rewrite forallb_forall in EL1.
      specialize (EL1 _ (dget_In _ _ _ _ EL3)). simpl in EL1. apply Nat.eqb_eq in EL1.
      apply nth_error_ext_. intros i. destruct (lt_dec i (Z.to_nat num)) as [Hi|Hi].
      * rewrite NL by auto. rewrite nth_error_map. rewrite (nth_error_nth' (seq 0 (Z.to_nat num)) 0%nat) by now rewrite seq_length.
        rewrite seq_nth by auto. simpl. f_equal. f_equal. unfold count, part. apply flat_map_length_ext. intros; now rewrite map_length.
      * transitivity (@None (@ocell PV)); [|symmetry]; apply nth_error_None; [lia|]. rewrite map_length, seq_length. lia.
Qed.

Lemma dget_col : forall V k (d : dict (list V)), dmem k d = true -> dget k d = Some (col k d).
Proof. intros. unfold dmem, col in *. destruct (dget k d); auto. discriminate. Qed.
Lemma repeat_flat : forall (rows : nat -> nat -> list nat) S N,
  map (fun x => fst (fst x)) (observations rows N S) =
  flat_map (fun i => repeat i (length (flat_map (fun s => rows i s) (seq 0 S)))) (seq 0 N).
Proof.
  intros. unfold observations. generalize (seq 0 N) as is. induction is as [|i is IH]; simpl; auto. rewrite map_app, IH. f_equal.
  generalize (seq 0 S) as ss. induction ss as [|x ss IHs]; simpl; auto. rewrite map_app, IHs, app_length, repeat_app. f_equal.
  rewrite map_map. simpl. apply map_const_repeat.
Qed.

(** ** C38: bookkeeping *)
(** All per-observation columns have one entry per label; the labels are 0 repeated nobs[0] times, then 1 repeated nobs[1]
    times, ...; nobs[i] is the number of selected rows of object i over all surveys; the survey indices inside an object's block
    are 0 repeated, then 1 repeated, ... *)
Theorem C38_bookkeeping : forall (m : physical) flux error keep draws num (sm : samples) surveys npass save params use_mask off r,
  ball_spec ball -> pointwise m flux error keep -> run_ok num sm surveys ->
  NoDup save -> (forall k, In k save -> ~ In k base_cols) ->
  simulate ball m draws num sm surveys npass save params use_mask off = Ok r ->
  exists lo hi rows, get_time_windows (sm_t0 sm) off = Ok (lo, hi) /\ rows_spec sm surveys lo hi use_mask keep rows /\
    let N := Z.to_nat num in let S := length surveys in
    let nobs i := length (flat_map (fun s => rows i s) (seq 0 S)) in
    (forall k c, In (k, c) (sr_nested r) -> length c = length (sr_index r)) /\
    sr_index r = flat_map (fun i => repeat i (nobs i)) (seq 0 N) /\
    dget "nobs" (sr_cols r) = Some (map (fun i => ONat (nobs i)) (seq 0 N)) /\
    dget "survey_idx" (sr_nested r) = Some (flat_map (fun i => flat_map (fun s => repeat (NIdx s) (length (rows i s))) (seq 0 S)) (seq 0 N)) /\
    (forall k c, In (k, c) (sr_cols r) -> length c = N).
Proof.
  intros m flux error keep draws num sm surveys npass save params use_mask off r HB PW RO HS HD H.
  destruct (simulate_inv _ _ _ _ _ _ _ _ _ _ _ _ _ _ HB PW RO HS HD H) as (lo & hi & rows & res0 & EZ & EW & RS & IA & EP & EN & EK & A1 & A2).
  exists lo, hi, rows. split; auto. split; auto. cbv zeta.
  destruct IA as [I1 I2 I3 I4 I5 I6 I7 I8 I9 I10 I11]. cbn [ac_index ac_used ac_nested] in *.
  split; [|split; [|split; [|split]]].
  - intros k c HI. unfold all_len in A2. rewrite forallb_forall in A2. specialize (A2 _ HI). now apply Nat.eqb_eq in A2.
  - rewrite I1. apply repeat_flat.
  - exact EN.
  - rewrite (dget_col _ _ _ (I10 "survey_idx"%string ltac:(left; simpl; tauto))). f_equal. rewrite I8.
    unfold observations. generalize (seq 0 (Z.to_nat num)) as is. induction is as [|i is IH]; simpl; auto. rewrite map_app, IH. f_equal.
    generalize (seq 0 (length surveys)) as ss. induction ss as [|x ss IHs]; simpl; auto. rewrite map_app, IHs. f_equal.
    rewrite map_map. simpl. apply map_const_repeat.
  - intros k c HI. unfold all_len in A1. rewrite forallb_forall in A1. specialize (A1 _ HI). now apply Nat.eqb_eq in A1.
Qed.

(** ** C39: every observation carries its own survey row *)
(** The p-th observation (object i, survey s, table row j) has the time, the filter and the saved columns of row j of
    survey s, the model's flux for object i at that time and filter, the survey's error for that flux and row, and a
    noisy flux that uses the p-th normal deviate. *)
Theorem C39_rows : forall (m : physical) flux error keep draws num (sm : samples) surveys npass save params use_mask off r,
  ball_spec ball -> pointwise m flux error keep -> run_ok num sm surveys ->
  NoDup save -> (forall k, In k save -> ~ In k base_cols) ->
  simulate ball m draws num sm surveys npass save params use_mask off = Ok r ->
  exists lo hi rows, get_time_windows (sm_t0 sm) off = Ok (lo, hi) /\ rows_spec sm surveys lo hi use_mask keep rows /\
    let obs := observations rows (Z.to_nat num) (length surveys) in
    length (sr_index r) = length obs /\
    forall p i s j, nth_error obs p = Some (i, s, j) ->
      exists st o t f cols, nth_error (sm_states sm) i = Some st /\ nth_error surveys s = Some o /\
        num_at o "time" j = Some t /\ item_at o "filter" j = Some f /\ cols = (fun k => nth_error (col k (sr_nested r)) p) /\
        let fp := flux s st t (text_of f) in
        nth_error (sr_index r) p = Some i /\
        cols "mjd"%string = Some (NNum t) /\ cols "filter"%string = Some (NStr (text_of f)) /\
        cols "flux_perfect"%string = Some (NNum fp) /\ cols "fluxerr"%string = Some (NNum (error s fp j)) /\
        cols "flux"%string = Some (NNum (fp + error s fp j * draws p)) /\ cols "survey_idx"%string = Some (NIdx s) /\
        (forall k, In k save -> cols k = Some (match item_at o k j with Some c => ncell_of c | None => NNone end)).
Proof.
  intros m flux error keep draws num sm surveys npass save params use_mask off r HB PW RO HS HD H.
  destruct (simulate_inv _ _ _ _ _ _ _ _ _ _ _ _ _ _ HB PW RO HS HD H) as (lo & hi & rows & res0 & EZ & EW & RS & IA & EP & EN & EK & A1 & A2).
  exists lo, hi, rows. split; auto. split; auto. cbv zeta.
  destruct IA as [I1 I2 I3 I4 I5 I6 I7 I8 I9 I10 I11]. cbn [ac_index ac_used ac_nested] in *. split; auto.
  intros p i s j HP.
  assert (HIN : In (i, s, j) (observations rows (Z.to_nat num) (length surveys))) by (eapply nth_error_In; eauto).
  unfold observations in HIN. apply in_flat_map in HIN. destruct HIN as (i' & Hi & HIN). apply in_flat_map in HIN.
  destruct HIN as (s' & Hs & HIN). apply in_map_iff in HIN. destruct HIN as (j' & E & HJ). injection E as -> -> ->.
  apply in_seq in Hi. apply in_seq in Hs. destruct RO as [R1 R2 R3 R4 R5].
  destruct (nth_error (sm_states sm) i) as [st|] eqn:ES; [|apply nth_error_None in ES; lia].
  destruct (nth_error surveys s) as [o|] eqn:EO; [|apply nth_error_None in EO; lia].
  destruct (nth_error (sm_ra sm) i) as [ra|] eqn:ERA; [|apply nth_error_None in ERA; lia].
  destruct (nth_error (sm_dec sm) i) as [dec|] eqn:EDEC; [|apply nth_error_None in EDEC; lia].
  destruct (R5 o) as (rad & ERAD & HRAD); [eapply nth_error_In; eauto|].
  destruct (RS i s st o ra dec rad ES EO ERA EDEC ERAD) as [_ IFF]. destruct (proj1 (IFF j) HJ) as [(ra' & dec' & t & _ & _ & ET & _) _].
  assert (RT : row_time surveys s j = t) by (unfold row_time, in_survey; now rewrite EO, ET).
  (* the filter column was read at row j *)
  assert (EF : exists f, item_at o "filter" j = Some f).
  { destruct (I11 _ _ _ (nth_error_In _ _ HP)) as (o' & f & EO2 & EF). exists f. congruence. }
  destruct EF as (f & EF).
  assert (RF : row_filter surveys s j = text_of f) by (unfold row_filter, in_survey; now rewrite EO, EF).
  assert (PFX : pflux flux surveys (sm_states sm) (i, s, j) = flux s st t (text_of f)) by (unfold pflux; rewrite ES, RT, RF; auto).
  assert (PEX : perr flux error surveys (sm_states sm) (i, s, j) = error s (flux s st t (text_of f)) j) by (unfold perr; rewrite PFX; auto).
  eexists st, o, t, f, _. split; auto. split; auto. split; auto. split; auto. split; [reflexivity|]. cbv beta.
  split; [rewrite I1, nth_error_map, HP; auto|]. split; [rewrite I3, nth_error_map, HP; simpl; now rewrite RT|].
  split; [rewrite I4, nth_error_map, HP; simpl; now rewrite RF|]. split; [rewrite I5, nth_error_map, HP; unfold option_map; now rewrite PFX|].
  split; [rewrite I6, nth_error_map, HP; unfold option_map; now rewrite PEX|].
  split; [|split].
  - rewrite I7. assert (LP : (p < length (observations rows (Z.to_nat num) (length surveys)))%nat) by (apply nth_error_Some; congruence).
    rewrite <- PEX, <- PFX. revert HP LP. generalize (observations rows (Z.to_nat num) (length surveys)) as L. clear.
    assert (G : forall L b p x, nth_error L p = Some x -> nth_error (zip_with (fun p x => NNum (pflux flux surveys (sm_states sm) x + perr flux error surveys (sm_states sm) x * draws p)) (seq b (length L)) L) p =
        Some (NNum (pflux flux surveys (sm_states sm) x + perr flux error surveys (sm_states sm) x * draws (b + p)%nat))).
    { induction L as [|y L IH]; intros b [|p'] x E; simpl in *; try discriminate.
      - injection E as ->. now rewrite Nat.add_0_r.
      - rewrite (IH (S b) p' x E). replace (S b + p')%nat with (b + S p')%nat by lia. reflexivity. }
    intros L E _. rewrite (G L 0%nat p _ E). reflexivity.
  - rewrite I8, nth_error_map, HP. auto.
  - intros k HK. rewrite (I9 k HK), nth_error_map, HP. simpl. unfold row_saved, in_survey. rewrite EO. destruct (item_at o k j); auto.
Qed.
End Sim.
