(** When a simulation succeeds, when it raises, and its object-level columns (C38, C39). *)
From Coq Require Import Reals String Ascii List Bool Arith ZArith Lia Lra.
From Verif Require Import Base BaseFacts RealBase ObsTableModel ObsTableProps SimulateModel SimulateProps.
Import ListNotations.
Open Scope R_scope.

Lemma getitem_length : forall o k c, tinv o -> ob_getitem o k = Ok c -> length c = nrows (ob_frame o).
Proof.
  intros o k c HT H. destruct (ti_frame _ HT) as [_ F]. rewrite Forall_forall in F. unfold ob_getitem in H.
  destruct (dget k (f_cols (ob_frame o))) eqn:E1; [injection H as <-; apply (F _ (dget_In _ _ _ _ E1))|].
  destruct (dget k (ob_inv o)) as [k'|]; [|discriminate]. destruct (dget k' (f_cols (ob_frame o))) eqn:E2; [|discriminate].
  injection H as <-. apply (F _ (dget_In _ _ _ _ E2)).
Qed.

Section Defined.
Context {St PV : Type}.
Variable ball : list vec3 -> vec3 -> R -> list nat.
Notation physical := (@physical St).
Notation samples := (@samples St PV).

(** Every row of every table can be evaluated: the model has a flux for its time and filter, and the survey an error bar for
    that flux. *)
Definition total_model (m : physical) (surveys : list obstable) (sts : list St) : Prop :=
  forall s o st idx, nth_error surveys s = Some o -> In st sts -> (forall j, In j idx -> (j < nrows (ob_frame o))%nat) ->
    exists fluxes errs, ph_eval m s (map (tm o) idx) (map (fl o) idx) st = Ok fluxes /\ ph_error m s fluxes idx = Ok errs.

Section Total.
Variables (m : physical) (flux : nat -> St -> R -> string -> R) (error : nat -> R -> nat -> R) (keep : St -> R -> bool).
Hypothesis PW : pointwise m flux error keep.
Variables (draws : nat -> R) (use_mask : bool) (save : list string).
Definition kinv (d : dict (list ncell)) : Prop :=
  NoDup (dkeys d) /\ forall k, In k (dkeys d) <-> In k base_cols \/ In k save.
Lemma kinv_dext : forall k v d, In k base_cols \/ In k save -> kinv d -> kinv (dext k v d).
Proof.
  intros k v d HK [N I]. unfold dext. split; [now apply NoDup_dset|]. intros k'. rewrite <- I, In_dkeys_dset. split; [|tauto].
  intros [->|H]; auto. now apply I.
Qed.
Lemma save_total : forall o idx re sv d, tinv o -> (forall k, In k sv -> In k save) -> (forall j, In j idx -> (j < nrows (ob_frame o))%nat) ->
  (forall k, In k sv -> ob_contains o k = true -> re = false) -> kinv d ->
  exists d', fold_res (save_col o idx re) d sv = Ok d' /\ kinv d'.
Proof.
  intros o idx re sv. induction sv as [|c sv IH]; intros d HT HS HI HR HK; cbn [fold_res]; eauto.
  assert (X : exists v, save_col o idx re d c = Ok (dext c v d)).
  { unfold save_col. destruct (ob_contains o c) eqn:EC; eauto. rewrite (HR c) by (simpl; auto). apply C37_contains in EC. destruct EC as (cl & EC).
    rewrite EC. cbn [bind]. destruct (pick_ok _ cl idx) as (vs & ->); [|cbn [bind]; eauto]. intros j HJ.
    rewrite (getitem_length _ _ _ HT EC). auto. }
  destruct X as (v & ->). apply IH; auto. intros k Hk. apply HS. simpl; auto. intros k Hk. apply HR. simpl; auto.
  apply kinv_dext; auto. right. apply HS. simpl; auto.
Qed.
Lemma mask_list_incl : forall A (ms : list bool) (l : list A) x, In x (mask_list ms l) -> In x l.
Proof. induction ms as [|b ms IH]; intros [|a l] x H; simpl in *; try tauto. destruct b; simpl in H; intuition. Qed.
Lemma mask_list_len : forall A B (ms : list bool) (l : list A) (l' : list B), length l = length l' -> length (mask_list ms l) = length (mask_list ms l').
Proof. induction ms as [|b ms IH]; intros [|a l] [|a' l'] H; simpl in *; try lia. destruct b; simpl; auto. Qed.
Lemma pick_length : forall A (l : list A) idx r, pick l idx = Ok r -> length r = length idx.
Proof. intros A l. induction idx as [|i idx IH]; intros r H; simpl in H; [injection H as <-; auto|].
  destruct (nth_error l i); [|discriminate]. destruct (pick l idx); [|discriminate]. simpl in H. injection H as <-. simpl. now rewrite IH. Qed.
Lemma zip_with_length : forall A B C (f : A -> B -> C) a b, length a = length b -> length (zip_with f a b) = length a.
Proof. induction a as [|x a IH]; intros [|y b] H; simpl in *; try discriminate; auto. Qed.

Lemma one_survey_total : forall o s i st found re a t, tinv o -> (exists f, ob_getitem o "filter" = Ok f) ->
  (forall idx, (forall j, In j idx -> (j < nrows (ob_frame o))%nat) ->
     exists fluxes errs, ph_eval m s (map (tm o) idx) (map (fl o) idx) st = Ok fluxes /\ ph_error m s fluxes idx = Ok errs) ->
  (forall j, In j found -> (j < nrows (ob_frame o))%nat) -> (forall k, In k save -> ob_contains o k = true -> re = false) ->
  kinv (ac_nested a) -> exists a' t', one_survey m draws use_mask save o s i st found re a t = Ok (a', t') /\ kinv (ac_nested a').
Proof.
  intros o s i st found re a t HT (cf & EF) TM HF HR HK. unfold one_survey.
  assert (ET : exists ct, ob_getitem o "time" = Ok ct /\ dget "time" (f_cols (ob_frame o)) = Some ct).
  { pose proof (ti_req _ HT "time"%string ltac:(simpl; auto)) as HI. apply dget_keys in HI. unfold ob_getitem.
    destruct (dget "time" (f_cols (ob_frame o))); [eauto|congruence]. }
  destruct ET as (ct & ET & EG). rewrite ET, EF. cbn [bind]. cbv zeta. pose proof (getitem_length _ _ _ HT ET) as LT. pose proof (getitem_length _ _ _ HT EF) as LF.
  assert (TMN : forall j, (j < nrows (ob_frame o))%nat -> nth j (map num_of ct) 0 = tm o j).
  { intros j HJ. unfold tm, num_at, cell_at. rewrite EG. rewrite (nth_error_nth' ct (CNum 0)) by lia. cbn [option_map].
    change 0 with (num_of (CNum 0)) at 1. apply map_nth. }
  assert (FLN : forall j, (j < nrows (ob_frame o))%nat -> nth j (map text_of cf) ""%string = fl o j).
  { intros j HJ. unfold fl, item_at. rewrite EF. rewrite (nth_error_nth' cf (CStr "")) by lia. cbn [option_map].
    change ""%string with (text_of (CStr "")) at 1. apply map_nth. }
  match goal with |- context [bind ?X _] => assert (Y : exists idx, X = Ok (idx, map (tm o) idx, map (fl o) idx) /\ forall j, In j idx -> In j found) end.
  { destruct found as [|j0 f0]; [exists []; split; auto|]. set (found := j0 :: f0) in *.
    destruct (pick_ok _ (map num_of ct) found) as (ts & ETS); [intros j HJ; rewrite map_length, LT; auto|]. rewrite ETS. cbn [bind]. cbv zeta.
    destruct (pick_ok _ (map text_of cf) (if use_mask then mask_list (ph_mask m ts st) found else found)) as (fs & EFS).
    { intros j HJ. rewrite map_length, LF. apply HF. destruct use_mask; auto. eapply mask_list_incl; eauto. }
    rewrite EFS. cbn [bind].
    assert (ETS' : ts = map (tm o) found).
    { rewrite (proj1 (pick_spec _ _ _ _ 0 ETS)). apply map_ext_in. intros j HJ. apply TMN. auto. }
    assert (EFS' : fs = map (fl o) (if use_mask then mask_list (ph_mask m ts st) found else found)).
    { rewrite (proj1 (pick_spec _ _ _ _ ""%string EFS)). apply map_ext_in. intros j HJ. apply FLN, HF. destruct use_mask; auto. eapply mask_list_incl; eauto. }
    eexists. split; [rewrite EFS'|].
    - f_equal. f_equal. f_equal. rewrite ETS'. destruct use_mask; auto. now rewrite mask_list_map.
    - intros j HJ. cbv beta in HJ. destruct use_mask; auto. eapply mask_list_incl; eauto. }
  destruct Y as (idx & -> & SUB). cbn [bind].
  destruct (TM idx) as (pf & er & EP & EE); [auto|]. rewrite EP. cbn [bind]. rewrite EE. cbn [bind].
  match goal with |- context [fold_res _ ?D _] => destruct (save_total o idx re save D) as (d' & EFR & KD) end; auto.
  { repeat (apply kinv_dext; [left; simpl; tauto|]). auto. }
  rewrite EFR. cbn [bind]. eexists _, _. split; [reflexivity|]. exact KD.
Qed.

Variables (surveys : list obstable) (sm : samples) (mat : list (list (list nat))).
(** Every match is a row; and if a saved column exists in a survey, every object has a pointing of that survey nearby. *)
Definition good_input : Prop :=
  (forall o, In o surveys -> tinv o /\ exists f, ob_getitem o "filter" = Ok f) /\
  (forall s o, nth_error surveys s = Some o -> exists ms, nth_error mat s = Some ms /\ length ms = length (sm_states sm) /\
     forall i l j, nth_error ms i = Some l -> In j l -> (j < nrows (ob_frame o))%nat) /\
  (forall o i k, In o surveys -> (i < length (sm_states sm))%nat -> In k save -> ob_contains o k = true ->
     raw_empty ball o (nth i (sm_ra sm) 0) (nth i (sm_dec sm) 0) = false).
Hypothesis TM : total_model m surveys (sm_states sm).
Lemma one_object_total : forall i st a, good_input -> In st (sm_states sm) -> (i < length (sm_states sm))%nat -> kinv (ac_nested a) ->
  exists a' t, one_object ball m draws use_mask save surveys mat sm i st a = Ok (a', t) /\ kinv (ac_nested a').
Proof.
  intros i st a (G1 & G2 & G3) HST Hi HK. unfold one_object.
  assert (G : forall ss pre a t, surveys = (pre ++ ss)%list -> kinv (ac_nested a) -> exists a' t',
    fold_res (fun at_ so => let '(a, total) := at_ in let '(s, o) := so in
      match nth_error mat s with
      | None => Err IndexError
      | Some ms => match nth_error ms i with
                   | None => Err IndexError
                   | Some found => one_survey m draws use_mask save o s i st found
                                   (raw_empty ball o (nth i (sm_ra sm) 0) (nth i (sm_dec sm) 0)) a total
                   end
      end) (a, t) (combine (seq (length pre) (length ss)) ss) = Ok (a', t') /\ kinv (ac_nested a')).
  { induction ss as [|o ss IH]; intros pre b t EQ KB; cbn [fold_res length seq combine]; [eauto|].
    assert (EO : nth_error surveys (length pre) = Some o) by (rewrite EQ, nth_error_app2, Nat.sub_diag; auto).
    destruct (G2 _ _ EO) as (ms & -> & LM & HM). destruct (nth_error ms i) as [found|] eqn:EF; [|apply nth_error_None in EF; lia].
    assert (IO : In o surveys) by (eapply nth_error_In; eauto). destruct (G1 _ IO) as [TO FO].
    destruct (one_survey_total o (length pre) i st found (raw_empty ball o (nth i (sm_ra sm) 0) (nth i (sm_dec sm) 0)) b t TO FO) as (b' & t' & E & KB'); eauto.
    rewrite E. specialize (IH (pre ++ [o])%list b' t'). rewrite app_length in IH. cbn [length] in IH.
    replace (length pre + 1)%nat with (S (length pre)) in IH by lia. apply IH; auto. now rewrite <- app_assoc. }
  apply (G surveys []%list a 0%nat); auto.
Qed.
Lemma all_objects_total : forall a res (l0 : list (@ocell PV)), good_input -> kinv (ac_nested a) ->
  dget "nobs" res = Some l0 -> (length (sm_states sm) <= length l0)%nat ->
  exists a' res', all_objects ball m draws use_mask save surveys mat sm a res = Ok (a', res') /\ kinv (ac_nested a').
Proof.
  intros a res l0 GI HK EN LL. unfold all_objects.
  assert (G : forall ss pre a (r : dict (list (@ocell PV))) l, sm_states sm = (pre ++ ss)%list -> kinv (ac_nested a) -> dget "nobs" r = Some l -> length l = length l0 -> exists a' res',
     fold_res (fun ar ist => let '(a, res) := ar in let '(i, st) := ist in
      bind (one_object ball m draws use_mask save surveys mat sm i st a) (fun x =>
      let '(a', total) := x in
      match dget "nobs" res with
      | None => Err KeyError
      | Some l => if (i <? length l)%nat then Ok (a', dset "nobs" (set_nth i (ONat total) l) res)
                  else Err IndexError
      end)) (a, r) (combine (seq (length pre) (length ss)) ss) = Ok (a', res') /\ kinv (ac_nested a')).
  { induction ss as [|st ss IH]; intros pre b r l EQ KB EB EL; cbn [fold_res length seq combine]; [eauto|].
    assert (LP : (length pre < length (sm_states sm))%nat) by (rewrite EQ, app_length; simpl; lia).
    assert (HST : In st (sm_states sm)) by (rewrite EQ; apply in_or_app; right; left; auto).
    destruct (one_object_total (length pre) st b GI HST LP KB) as (b' & t & -> & KB'). cbn [bind]. rewrite EB.
    assert (LT : (length pre <? length l)%nat = true) by (apply Nat.ltb_lt; lia). rewrite LT.
    specialize (IH (pre ++ [st])%list b' (dset "nobs" (set_nth (length pre) (ONat t) l) r) (set_nth (length pre) (ONat t) l)).
    rewrite app_length in IH. cbn [length] in IH. replace (length pre + 1)%nat with (S (length pre)) in IH by lia.
    apply IH; auto. now rewrite <- app_assoc. apply dget_dset_same. now rewrite set_nth_length. }
  apply (G (sm_states sm) []%list a res l0); auto.
Qed.
End Total.

Lemma kinv_init : forall save, kinv save (nested_init save).
Proof.
  intros save. unfold nested_init.
  assert (G : forall sv d (P : string -> Prop), NoDup (dkeys d) -> (forall k, In k (dkeys d) <-> P k) ->
    let d' := fold_left (fun d c => dset c ([] : list ncell) d) sv d in NoDup (dkeys d') /\ forall k, In k (dkeys d') <-> P k \/ In k sv).
  { induction sv as [|c sv IH]; intros d P N I; simpl; [split; auto; intros k; rewrite I; tauto|].
    destruct (IH (dset c [] d) (fun k => k = c \/ P k)) as [N' I'].
    - now apply NoDup_dset.
    - intros k. now rewrite In_dkeys_dset, I.
    - split; auto. intros k. rewrite I'. intuition. }
  apply G.
  - vm_compute. repeat constructor; simpl; intuition discriminate.
  - intros k. simpl. tauto.
Qed.

(** Parameter columns: present and one value per object. *)
Definition params_ok (num : Z) (sm : samples) (params : list string) : Prop :=
  forall c, In c params -> exists v, sm_param sm c = Some v /\ length v = Z.to_nat num.
(** One value per object for the other object-level columns. *)
Definition cols_ok (num : Z) (sm : samples) : Prop :=
  length (sm_t0col sm) = Z.to_nat num /\ length (sm_z sm) = Z.to_nat num /\ length (sm_params sm) = Z.to_nat num.
Lemma add_params_ok : forall num (sm : samples) params d, params_ok num sm params -> (forall k c, In (k, c) d -> length c = Z.to_nat num) ->
  NoDup (dkeys d) -> exists d', add_params sm params d = Ok d' /\ (forall k c, In (k, c) d' -> length c = Z.to_nat num) /\ NoDup (dkeys d') /\
    (forall k, In k (dkeys d) -> In k (dkeys d')).
Proof.
  intros num sm. induction params as [|c params IH]; intros d HP HL HN; unfold add_params in *; cbn [fold_res]; [eauto 10|].
  destruct (HP c (or_introl eq_refl)) as (v & EV & LV). rewrite EV.
  destruct (IH (dset (undot c) (map OVal v) d)) as (d' & E & L & N & K).
  - intros k Hk. apply HP. simpl; auto.
  - intros k cc HI. assert (ND : NoDup (dkeys (dset (undot c) (map OVal v) d))) by now apply NoDup_dset.
    apply In_dget in HI; auto. destruct (String.eqb k (undot c)) eqn:EK.
    + apply String.eqb_eq in EK. subst k. rewrite dget_dset_same in HI. injection HI as <-. now rewrite map_length.
    + rewrite dget_dset_other in HI; [|intros ->; rewrite String.eqb_refl in EK; discriminate]. apply HL with k. now apply dget_In.
  - now apply NoDup_dset.
  - exists d'. split; auto. split; auto. split; auto. intros k Hk. apply K. apply In_dkeys_dset. auto.
Qed.
Lemma all_objects_keys : forall (m : physical) draws um save surveys mat (sm : samples) a res a' res',
  all_objects ball m draws um save surveys mat sm a res = Ok (a', res') -> NoDup (dkeys res) -> NoDup (dkeys res').
Proof.
  intros m draws um save surveys mat sm a res a' res'. unfold all_objects. generalize (combine (seq 0 (length (sm_states sm))) (sm_states sm)) as l.
  intros l. revert a res. induction l as [|[i st] l IH]; intros a res H N; cbn [fold_res] in H; [injection H as _ <-; auto|].
  destruct (one_object ball m draws um save surveys mat sm i st a) as [[b t]|]; [|discriminate]. cbn [bind] in H.
  destruct (dget "nobs" res) as [l1|]; [|discriminate]. destruct (i <? length l1)%nat; [|discriminate]. eapply IH; eauto. now apply NoDup_dset.
Qed.

(** A simulation with consistent inputs returns a result. *)
Theorem C38_defined : forall (m : physical) flux error keep draws num (sm : samples) surveys npass save params use_mask off lo hi,
  ball_spec ball -> pointwise m flux error keep -> total_model m surveys (sm_states sm) -> run_ok num sm surveys -> (0 < num)%Z -> cols_ok num sm ->
  params_ok num sm params -> length surveys = npass -> (ph_bandflux m = true -> length surveys = 1%nat) ->
  NoDup save -> (forall k, In k save -> ~ In k base_cols) ->
  get_time_windows (sm_t0 sm) off = Ok (lo, hi) ->
  (forall l, lo = Some l \/ hi = Some l -> length l = Z.to_nat num) ->
  (forall o, In o surveys -> exists f, ob_getitem o "filter" = Ok f) ->
  (forall o k i ra dec, In o surveys -> In k save -> ob_contains o k = true -> nth_error (sm_ra sm) i = Some ra -> nth_error (sm_dec sm) i = Some dec ->
     exists j ra' dec' r, num_at o "ra" j = Some ra' /\ num_at o "dec" j = Some dec' /\ radius_of o None = Some r /\ separation ra' dec' ra dec <= r) ->
  exists r, simulate ball m draws num sm surveys npass save params use_mask off = Ok r.
Proof.
  intros m flux error keep draws num sm surveys npass save params use_mask off lo hi HB PW TM RO HN (C1 & C2 & C3) HP LN HBF HS HD HW HWL HFIL HNEAR.
  pose proof RO as [R1 R2 R3 R4 R5]. unfold simulate. assert (EZ : (num <=? 0)%Z = false) by (apply Z.leb_gt; lia). rewrite EZ.
  rewrite LN, Nat.eqb_refl. cbn [negb].
  assert (EB : (1 <? npass)%nat && ph_bandflux m = false).
  { destruct (ph_bandflux m); [|apply andb_false_r]. rewrite <- LN, HBF; auto. }
  rewrite EB. cbv zeta.
  destruct (add_params_ok num sm params (object_dict (Z.to_nat num) sm)) as (res0 & EP & LP & NP & KP); auto.
  { intros k c HI. simpl in HI. repeat (destruct HI as [E|HI]; [injection E as <- <-; rewrite ?map_length, ?seq_length, ?repeat_length; auto|]). destruct HI. }
  { vm_compute. repeat constructor; simpl; intuition discriminate. }
  rewrite EP. cbn [bind]. rewrite HW. cbn [bind fst snd].
  assert (EM : exists mat, all_matches ball surveys sm lo hi = Ok mat).
  { unfold all_matches.
    assert (G : forall ss acc, (forall o, In o ss -> In o surveys) -> exists mat, fold_res (fun l o => bind (range_search ball o (QArray (sm_ra sm)) (QArray (sm_dec sm)) None (targ_of lo) (targ_of hi))
                         (fun f => match f with Many x => Ok (l ++ [x])%list | One _ => Err TypeError end)) acc ss = Ok mat).
    { induction ss as [|o ss IH]; intros acc HI; cbn [fold_res]; eauto.
      destruct (R5 o) as (r & ER & HR); [apply HI; simpl; auto|].
      destruct (C34_defined ball o (sm_ra sm) (sm_dec sm) None (targ_of lo) (targ_of hi) r ER) as (res & ERS).
      - lia.
      - intros x; destruct lo; discriminate.
      - intros x; destruct hi; discriminate.
      - intros l E. destruct lo as [l'|]; [|discriminate]. injection E as ->. rewrite R2. apply HWL; auto.
      - intros l E. destruct hi as [l'|]; [|discriminate]. injection E as ->. rewrite R2. apply HWL; auto.
      - rewrite ERS. assert (TO : tinv o) by (rewrite Forall_forall in R4; apply R4, HI; simpl; auto).
        destruct (exact_many_inv _ _ _ _ _ _ _ _ _ HB TO ER HR ERS) as (l & -> & _). cbn [bind]. apply IH. intros o' Ho'. apply HI. simpl; auto. }
    apply G; auto. }
  destruct EM as (mat & EM). rewrite EM. cbn [bind]. destruct (all_matches_nth _ _ _ _ _ _ EM) as [LM PM].
  assert (GI : good_input save surveys sm mat).
  { split; [|split].
    - intros o IO. split; auto. rewrite Forall_forall in R4. auto.
    - intros s o EO. destruct (PM _ _ EO) as (ms & E1 & E2). exists ms. split; auto.
      assert (IO : In o surveys) by (eapply nth_error_In; eauto). assert (TO : tinv o) by (rewrite Forall_forall in R4; auto).
      destruct (R5 o IO) as (r & ER & HR). destruct (exact_many_inv _ _ _ _ _ _ _ _ _ HB TO ER HR E2) as (l & E3 & L1 & L2 & SP). injection E3 as <-.
      split; [lia|]. intros i l j EL HJ.
      destruct (nth_error (sm_ra sm) i) as [ra|] eqn:ERA.
      2:{ apply nth_error_None in ERA. assert (nth_error ms i = None) by (apply nth_error_None; lia). congruence. }
      destruct (nth_error (sm_dec sm) i) as [dec|] eqn:EDEC.
      2:{ apply nth_error_None in EDEC. assert (i < length (sm_ra sm))%nat by (apply nth_error_Some; congruence). lia. }
      destruct (SP _ _ _ ERA EDEC) as (lk & E4 & _ & IFF). assert (lk = l) as -> by congruence. apply IFF in HJ. destruct HJ as (ra' & dec' & t & _ & _ & ET & _).
      eapply num_at_lt; eauto.
    - intros o i k IO Hi HK HC. rewrite R1 in Hi.
      destruct (nth_error (sm_ra sm) i) as [ra|] eqn:ERA; [|apply nth_error_None in ERA; lia].
      destruct (nth_error (sm_dec sm) i) as [dec|] eqn:EDEC; [|apply nth_error_None in EDEC; lia].
      rewrite (nth_error_nth _ _ _ ERA), (nth_error_nth _ _ _ EDEC).
      destruct (HNEAR o k i ra dec IO HK HC ERA EDEC) as (j & ra' & dec' & r & N1 & N2 & ER & SEP).
      unfold raw_empty. pose proof (radius_eq _ _ _ ER) as PR. simpl in PR. rewrite PR.
      destruct (ball (ob_tree o) (cart ra dec) (2 * sin (1 / 2 * radians r))) eqn:EB2; auto. exfalso.
      destruct (HB (ob_tree o) (cart ra dec) (2 * sin (1 / 2 * radians r))) as [_ HI]. rewrite EB2 in HI. apply (HI j). exists (cart ra' dec').
      destruct (R5 o IO) as (r2 & ER2 & HR). assert (r2 = r) as -> by congruence. assert (TO : tinv o) by (rewrite Forall_forall in R4; auto).
      split; [apply tree_nth; [assumption|eauto]|]. now apply C34_chord_is_angle. }
  assert (EN : exists l0, dget "nobs" res0 = Some l0 /\ length l0 = Z.to_nat num).
  { destruct (dget "nobs" res0) as [l0|] eqn:E.
    - exists l0. split; auto. apply LP with "nobs"%string. now apply dget_In.
    - exfalso. apply dget_None in E. apply E, KP. simpl. tauto. }
  destruct EN as (l0 & EN & LL0).
  destruct (all_objects_total m draws use_mask save surveys sm mat TM (mkAcc (nested_init save) [] 0) res0 l0 GI (kinv_init save) EN) as (a & res & EO & KA).
  { lia. }
  rewrite EO. cbn [bind].
  assert (I0 : ainv flux error draws save surveys sm [] (mkAcc (nested_init save) [] 0)).
  { constructor; cbn [ac_nested ac_index ac_used]; auto; try apply col_init. intros; apply col_init. intros; now apply keys_init. intros ? ? ? []. }
  destruct (all_objects_inv _ _ _ _ _ PW draws use_mask save HS HD surveys sm mat R4 _ _ _ _ _ EN EO I0) as (IA & (l & EL3 & LL & NL) & EK).
  assert (A1 : all_len (Z.to_nat num) res = true).
  { apply forallb_forall. intros [k c] HI. simpl. apply Nat.eqb_eq. pose proof (all_objects_keys _ _ _ _ _ _ _ _ _ _ _ EO NP) as NR.
    apply In_dget in HI; auto. destruct (String.eqb k "nobs") eqn:E.
    - apply String.eqb_eq in E. subst k. congruence.
    - apply String.eqb_neq in E. rewrite EK in HI by auto. apply LP with k. now apply dget_In. }
  assert (A2 : all_len (length (ac_index a)) (ac_nested a) = true).
  { apply forallb_forall. intros [k c] HI. simpl. apply Nat.eqb_eq. destruct KA as [N K].
    assert (HK : In k base_cols \/ In k save) by (apply K; unfold dkeys; apply in_map_iff; exists (k, c); auto).
    apply In_dget in HI; auto. assert (EC : c = col k (ac_nested a)) by (unfold col; now rewrite HI).
    destruct IA as [I1 I2 I3 I4 I5 I6 I7 I8 I9 I10 I11]. rewrite I1, map_length. rewrite EC.
    destruct HK as [HK|HK]; [|rewrite I9 by auto; apply map_length].
    simpl in HK. repeat (destruct HK as [<-|HK]; [rewrite ?I3, ?I4, ?I5, ?I6, ?I7, ?I8, ?map_length; auto|]); [|destruct HK].
    rewrite zip_with_length; apply seq_length. }
  rewrite A1, A2. simpl. eauto.
Qed.
End Defined.
