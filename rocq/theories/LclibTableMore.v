(** C100 continued: filters, reference epoch, periodic light curves, accepted and refused tables, whole files. *)
From Coq Require Import Reals String Ascii List Bool Arith ZArith Lia Lra Permutation.
From Verif Require Import Base BaseFacts RealBase PassbandModel ObsTableModel SedModel NoiseModel.
From Verif Require LclibModel.
From Verif Require Import TemplateModel TemplateProps LclibTable LclibTableProps.
Import ListNotations.
Open Scope R_scope.

Lemma lc_keys : forall cs t0 periodic mags base lc b', make_lc (as_tabs cs) t0 periodic mags base = Ok (lc, b') -> lc_filters lc = dkeys cs.
Proof.
  intros cs t0 periodic mags base lc b' H. destruct (make_lc_inv _ _ _ _ _ _ _ H) as (d & c1 & HP & HC & _ & HV & _). simpl in HP. inversion HP; subst d. clear HP.
  assert (K : dkeys c1 = dkeys cs).
  { clear - HC. unfold dict_curves in HC. revert c1 HC. induction cs as [|[k c] cs IH]; intros c1 HC; simpl in HC; inversion HC; subst; simpl; auto.
    destruct y as [k' c']. destruct H1 as [E _]. simpl in E. subst k'. f_equal. apply IH; auto. }
  unfold lc_filters. destruct periodic; [|destruct HV as (-> & _); auto]. destruct HV as (p & HV & _).
  destruct (validate_periodicity_inv _ _ _ _ _ HV) as (f0 & c0 & rest & EC & _ & _ & _ & _ & [(_ & -> & _)|(_ & _ & _ & ->)]); auto.
  rewrite <- K. unfold dkeys. now rewrite map_map.
Qed.
Lemma wrap_keys : forall ts cs cs', wrap_curves ts cs = Ok cs' -> dkeys cs' = dkeys cs.
Proof.
  intros ts cs cs' H. unfold wrap_curves in H. cbv zeta in H. match type of H with (if ?b then _ else _) = _ => destruct b end; [discriminate|]. match type of H with (if ?b then _ else _) = _ => destruct b end; [congruence|]. inversion H. unfold dkeys. now rewrite map_map.
Qed.
(** The light curves are those of the filter columns asked for, each once; without a selection, in the order of the
    columns. *)
Theorem C100_filters : forall ord (t : table) forced filters lc, well_formed t -> only_permutes ord -> from_lclib_table ord t forced filters = Ok lc ->
  NoDup (lc_filters lc) /\ (forall f, In f (lc_filters lc) <-> kept t filters f) /\ lc_filters lc <> [] /\
  (filters = None -> lc_filters lc = filter (fun c => (negb (String.eqb c "time") && negb (String.eqb c "type"))%bool) (dkeys (t_cols t))).
Proof.
  intros ord t forced filters lc WF HO H. open_table H WF HO. destruct (md_lc _ _ _ _ _ _ _ _ _ _ M) as (b' & ML).
  assert (K : lc_filters lc = dkeys cs). { rewrite (lc_keys _ _ _ _ _ _ _ ML). pose proof (md_wrap _ _ _ _ _ _ _ _ _ _ M) as MW. destruct periodic; [eapply wrap_keys; eauto|congruence]. }
  rewrite K. split; [apply M|]. split; [apply M|]. split.
  - rewrite FK. unfold from_lclib_table in H. destruct (negb _); [discriminate|]. cbv zeta in H. destruct (lib_filters ord (t_cols t) filters); [discriminate|discriminate].
  - intros ->. exact FK.
Qed.
(** Every filter kept can be evaluated at any times; any other filter is a ValueError. *)
Theorem C100_defined : forall ord (t : table) forced filters lc f ts, well_formed t -> only_permutes ord -> from_lclib_table ord t forced filters = Ok lc ->
  (kept t filters f -> exists out, lc_evaluate lc ts f = Ok out /\ length out = length ts) /\
  (~ kept t filters f -> lc_evaluate lc ts f = Err ValueError).
Proof.
  intros ord t forced filters lc f ts WF HO H. open_table H WF HO. destruct (md_lc _ _ _ _ _ _ _ _ _ _ M) as (b' & ML).
  assert (K : dkeys cs' = dkeys cs). { pose proof (md_wrap _ _ _ _ _ _ _ _ _ _ M) as MW. destruct periodic; [eapply wrap_keys; eauto|congruence]. }
  destruct (C48_defined _ _ _ _ _ _ _ f ts ML) as [D1 D2]. rewrite as_tabs_data in *. rewrite <- (md_kept _ _ _ _ _ _ _ _ _ _ M f), <- K. split; intros HK.
  - apply dget_keys in HK. destruct (dget f cs') as [c|]; [eauto|congruence].
  - apply D1. destruct (dget f cs') as [c|] eqn:E; auto. exfalso. apply HK. apply dget_keys. congruence.
Qed.

Lemma fold_min : forall l x, (fold_left Rmin l x = x \/ In (fold_left Rmin l x) l) /\ fold_left Rmin l x <= x /\ forall y, In y l -> fold_left Rmin l x <= y.
Proof.
  induction l as [|a l IH]; intros x; simpl; [split; [auto|]; split; [lra|intros y []]|]. destruct (IH (Rmin x a)) as (A & B & C).
  pose proof (Rmin_l x a). pose proof (Rmin_r x a). split; [|split; [lra|]].
  - destruct A as [A|A]; [|right; right; auto]. rewrite A. unfold Rmin. destruct (Rle_dec x a); auto.
  - intros y [<-|Hy]; [lra|auto].
Qed.
Lemma min_list_spec : forall l m, min_list l = Ok m -> In m l /\ forall y, In y l -> m <= y.
Proof.
  intros [|x l] m H; [discriminate|]. simpl in H. inversion H; subst m. destruct (fold_min l x) as (A & B & C). split.
  - destruct A as [->|A]; [left|right]; auto.
  - intros y [<-|Hy]; auto.
Qed.
Definition first_time (t : table) (x : R) : Prop := (exists i, has_time t i x) /\ forall i y, has_time t i y -> x <= y.
Definition last_time (t : table) (x : R) : Prop := (exists i, has_time t i x) /\ forall i y, has_time t i y -> y <= x.
Lemma times_rows : forall (t : table) ts x, src_nums t "time" ts -> (In x ts <-> exists i, has_time t i x).
Proof.
  intros t ts x HT. split.
  - intros HI. apply In_nth_error in HI. destruct HI as (n & Hn). destruct (row_back _ _ _ _ HT Hn) as (i & _ & A & B & _). exists i. split; auto.
  - intros (i & A & B). eapply nth_error_In. eapply row_in; eauto. eapply timed_row; eauto.
Qed.
Lemma first_time_min : forall (t : table) ts m, src_nums t "time" ts -> min_list ts = Ok m -> first_time t m.
Proof.
  intros t ts m HT HM. destruct (min_list_spec _ _ HM) as (A & B). split; [now apply (times_rows t ts)|].
  intros i y Hy. apply B. apply (times_rows t ts); eauto.
Qed.
(** The rows of any curve of an accepted table: at least one, with increasing times. *)
Lemma wrap_inv : forall ts cs cs', wrap_curves ts cs = Ok cs' -> (forall f c, In (f, c) cs -> c <> []) /\
  (((forall f c, In (f, c) cs -> isclose (first_y c) (last_y c) = true) /\ cs' = cs) \/
   ((exists f c, In (f, c) cs /\ isclose (first_y c) (last_y c) = false) /\
    cs' = map (fun fc => (fst fc, snd fc ++ [(last ts 0 + (last ts 0 - hd 0 ts) / INR (length ts - 1), first_y (snd fc))])) cs)).
Proof.
  intros ts cs cs' H. unfold wrap_curves in H. cbv zeta in H. match type of H with (if ?b then _ else _) = _ => destruct b eqn:EE end; [discriminate|]. split.
  { intros f c HI ->. assert (X : existsb (fun fc : string * curve => (length (snd fc) =? 0)%nat) cs = true) by (apply existsb_exists; exists (f, []); auto). unfold curve in *. rewrite EE in X. discriminate. }
  match type of H with (if ?b then _ else _) = _ => destruct b eqn:EF end.
  - left. split; [|congruence]. intros f c HI. rewrite forallb_forall in EF. apply (EF (f, c) HI).
  - right. split; [|congruence]. clear H EE. induction cs as [|[f c] cs IH]; simpl in EF; [discriminate|].
    apply andb_false_iff in EF. destruct EF as [EF|EF]; [exists f, c; split; [left|]; auto|]. destruct (IH EF) as (f' & c' & HI & E). exists f', c'. split; [right|]; auto.
Qed.
Lemma last_cons2 : forall A (a : A) l d, l <> [] -> last (a :: l) d = last l d.
Proof. intros A a [|b l] d H; [congruence|reflexivity]. Qed.
Lemma combine_ends : forall ts ys, length ts = length ys -> ts <> [] -> first_x (combine ts ys) = hd 0 ts /\ last_x (combine ts ys) = last ts 0 /\
  first_y (combine ts ys) = hd 0 ys /\ last_y (combine ts ys) = last ys 0.
Proof.
  intros ts. induction ts as [|t ts IH]; intros [|y ys] EL NE; simpl in EL; try discriminate; [congruence|]. unfold first_x, last_x, first_y, last_y. cbn [combine hd].
  destruct ts as [|t' ts]; destruct ys as [|y' ys]; try discriminate; [simpl; auto|]. destruct (IH (y' :: ys) ltac:(simpl in *; lia) ltac:(discriminate)) as (_ & A & _ & B).
  change (combine (t' :: ts) (y' :: ys)) with ((t', y') :: combine ts ys) in *. unfold last_x, last_y in A, B. rewrite !last_cons2 by discriminate. auto.
Qed.
Lemma hd_In : forall l, l <> [] -> In (hd 0 l) l.
Proof. intros [|a l] H; [congruence|left; auto]. Qed.
Lemma last_In : forall (l : list R) d, l <> [] -> In (last l d) l.
Proof. induction l as [|a l IH]; intros d H; [congruence|]. destruct l as [|b l]; [left; auto|]. right. rewrite last_cons2 by discriminate. apply IH. discriminate. Qed.
Lemma inc_bounds : forall l x, increasing l -> In x l -> hd 0 l <= x <= last l 0.
Proof.
  induction l as [|a l IH]; intros x HI HX; [destruct HX|]. destruct l as [|b l]; [destruct HX as [<-|[]]; simpl; lra|].
  pose proof (increasing_tail _ _ HI) as HT. rewrite last_cons2 by discriminate. simpl hd. assert (AB : a < b) by (apply (increasing_head _ _ _ HI); left; auto).
  destruct HX as [<-|HX]; [destruct (IH b HT (or_introl eq_refl)); lra|]. destruct (IH x HT HX) as [A B]. simpl in A. lra.
Qed.
Lemma inc_prefix : forall a b, increasing (a ++ b) -> increasing a.
Proof.
  induction a as [|x a IH]; intros b H; simpl in *; auto. destruct a as [|y a]; simpl in *; auto. destruct H as [A B]. split; auto. apply (IH b). exact B.
Qed.
Lemma md_increasing : forall t forced filters lc periodic ts t0 base cs cs', made t forced filters lc periodic ts t0 base cs cs' -> dkeys cs <> [] ->
  increasing ts /\ ts <> [].
Proof.
  intros t forced filters lc periodic ts t0 base cs cs' M NE. destruct (md_lc _ _ _ _ _ _ _ _ _ _ M) as (b' & ML).
  destruct cs as [|[f c] cs]; [contradiction NE; reflexivity|]. assert (DG : dget f ((f, c) :: cs) = Some c) by (simpl; now rewrite String.eqb_refl).
  destruct (md_curves _ _ _ _ _ _ _ _ _ _ M f c DG) as (ms & _ & -> & LEN). pose proof (md_wrap _ _ _ _ _ _ _ _ _ _ M) as MW.
  assert (LM : length ts = length (map mag2flux ms)) by (rewrite map_length; lia).
  destruct periodic.
  - destruct (wrap_inv _ _ _ MW) as (NEM & [(_ & ->)|(_ & ->)]).
    + destruct (make_lc_stored _ _ _ _ _ _ _ ML f) as [_ REST]. rewrite as_tabs_data, DG in REST. destruct (REST _ eq_refl) as (N & I & _). rewrite xs_combine in I by auto. split; auto. intros ->. apply N. reflexivity.
    + destruct (make_lc_stored _ _ _ _ _ _ _ ML f) as [_ REST]. rewrite as_tabs_data in REST. simpl dget in REST. rewrite String.eqb_refl in REST. destruct (REST _ eq_refl) as (N & I & _).
      unfold xs in I. rewrite map_app in I. change (map fst (combine ts (map mag2flux ms))) with (xs (combine ts (map mag2flux ms))) in I. rewrite xs_combine in I by auto.
      split; [eapply inc_prefix; eauto|]. intros ->. apply (NEM f (combine [] (map mag2flux ms)) (or_introl eq_refl)). reflexivity.
  - subst cs'. destruct (make_lc_stored _ _ _ _ _ _ _ ML f) as [_ REST]. rewrite as_tabs_data, DG in REST. destruct (REST _ eq_refl) as (N & I & _). rewrite xs_combine in I by auto. split; auto. intros ->. apply N. reflexivity.
Qed.
Lemma keys_ne : forall ord (t : table) forced filters lc cs, from_lclib_table ord t forced filters = Ok lc -> dkeys cs = lib_filters ord (t_cols t) filters -> dkeys (cs : dict curve) <> [].
Proof.
  intros ord t forced filters lc cs H ->. unfold from_lclib_table in H. destruct (negb _); [discriminate|]. cbv zeta in H. destruct (lib_filters ord (t_cols t) filters); discriminate.
Qed.
(** The source rows of an accepted table are in order of time. *)
Theorem C100_in_order : forall ord (t : table) forced filters lc i k x y, well_formed t -> only_permutes ord -> from_lclib_table ord t forced filters = Ok lc ->
  has_time t i x -> has_time t k y -> (i < k)%nat -> x < y.
Proof.
  intros ord t forced filters lc i k x y WF HO H [S1 X1] [S2 X2] LT. open_table H WF HO. destruct (md_increasing _ _ _ _ _ _ _ _ _ _ M (keys_ne _ _ _ _ _ _ H FK)) as (I & _).
  pose proof (md_times _ _ _ _ _ _ _ _ _ _ M) as HT. pose proof (timed_row _ _ _ X1) as R1. pose proof (timed_row _ _ _ X2) as R2.
  assert (RL : forall m i k, nth_error m i = Some true -> (i < k)%nat -> (rank m i < rank m k)%nat).
  { induction m as [|b m IH]; intros [|i0] [|k0] E L; simpl in *; try discriminate; try lia.
    - inversion E; subst. simpl. lia.
    - specialize (IH i0 k0 E ltac:(lia)). lia. }
  eapply (increasing_nth ts0 (rank (mask_of t) i) (rank (mask_of t) k)); eauto; [eapply row_in; eauto|eapply row_in; eauto|].
  apply RL; auto. apply source_mask; auto.
Qed.

Lemma first_time_hd : forall (t : table) ts, src_nums t "time" ts -> increasing ts -> ts <> [] -> first_time t (hd 0 ts) /\ last_time t (last ts 0).
Proof.
  intros t ts HT HI NE. split; split.
  - apply (times_rows t ts); auto. now apply hd_In.
  - intros i y Hy. apply (inc_bounds ts); auto. apply (times_rows t ts); eauto.
  - apply (times_rows t ts); auto. now apply last_In.
  - intros i y Hy. apply (inc_bounds ts); auto. apply (times_rows t ts); eauto.
Qed.
Lemma first_time_unique : forall (t : table) a b, first_time t a -> first_time t b -> a = b.
Proof. intros t a b [(i & A) HA] [(j & B) HB]. pose proof (HA j b B). pose proof (HB i a A). lra. Qed.
Lemma min_hd : forall ts m, increasing ts -> ts <> [] -> min_list ts = Ok m -> m = hd 0 ts.
Proof.
  intros ts m HI NE HM. destruct (min_list_spec _ _ HM) as (A & B). pose proof (inc_bounds ts m HI A). pose proof (B _ (hd_In ts NE)). lra.
Qed.
(** The first point of every curve of a periodic table is the first source row, whether or not a row was added. *)
Lemma periodic_curve : forall t forced filters lc ts t0 base cs cs' f c, made t forced filters lc true ts t0 base cs cs' -> ts <> [] -> dget f cs' = Some c ->
  exists ms, src_nums t f ms /\ length ms = length ts /\ first_x c = hd 0 ts /\ (forall x m, In (x, m) (combine ts ms) -> In (x, mag2flux m) c) /\
    (((forall g m1 m2, In g (dkeys cs) -> (exists ms, src_nums t g ms /\ ms <> [] /\ m1 = hd 0 ms /\ m2 = last ms 0) -> isclose (mag2flux m1) (mag2flux m2) = true) /\ last_x c = last ts 0) \/
     ((exists g ms, In g (dkeys cs) /\ src_nums t g ms /\ ms <> [] /\ isclose (mag2flux (hd 0 ms)) (mag2flux (last ms 0)) = false) /\ last_x c = last ts 0 + (last ts 0 - hd 0 ts) / INR (length ts - 1))).
Proof.
  intros t forced filters lc ts t0 base cs cs' f c M NE HC. pose proof (md_wrap _ _ _ _ _ _ _ _ _ _ M) as MW. simpl in MW.
  assert (CB : forall ms x m, length ms = length ts -> In (x, m) (combine ts ms) -> In (x, mag2flux m) (combine ts (map mag2flux ms))).
  { clear. intros ms. revert ms. induction ts as [|a ts IH]; intros [|b ms] x m EL HI; simpl in *; try discriminate; [destruct HI|]. destruct HI as [X|HI]; [left; inversion X; auto|right; apply IH; auto]. }
  assert (HL : forall ms d, ms <> [] -> hd 0 (map mag2flux ms) = mag2flux (hd d ms) /\ last (map mag2flux ms) 0 = mag2flux (last ms d)).
  { intros ms d NM. split; [destruct ms; [congruence|reflexivity]|]. apply last_map_gen; auto. }
  assert (SU : forall g ms ms', src_nums t g ms -> src_nums t g ms' -> ms = ms') by (intros g ms ms' [_ A] [_ B]; apply CNum_inj; congruence).
  assert (EN : forall g ms, src_nums t g ms -> length ms = length ts -> ms <> []) by (intros g ms _ EL ->; destruct ts; [congruence|discriminate]).
  destruct (wrap_inv _ _ _ MW) as (NEM & [(CL & ->)|((g & cg & HG & OP) & ->)]).
  - destruct (md_curves _ _ _ _ _ _ _ _ _ _ M f c HC) as (ms & SM & -> & LEN). exists ms. split; auto. split; auto.
    destruct (combine_ends ts (map mag2flux ms) ltac:(rewrite map_length; lia) NE) as (E1 & E2 & _). split; auto. split; [intros; apply CB; auto|]. left. split; auto.
    intros g m1 m2 HG (ms' & SM' & NM & -> & ->). apply dget_keys in HG. destruct (dget g cs) as [cg|] eqn:EG; [|congruence].
    destruct (md_curves _ _ _ _ _ _ _ _ _ _ M g cg EG) as (mg & SMG & -> & LG). assert (mg = ms') as -> by eauto.
    specialize (CL g _ (dget_In _ _ _ _ EG)). destruct (combine_ends ts (map mag2flux ms') ltac:(rewrite map_length; lia) NE) as (_ & _ & E3 & E4). rewrite E3, E4 in CL.
    destruct (HL ms' 0 NM) as [X1 X2]. rewrite X1, X2 in CL. exact CL.
  - match type of HC with dget f (map ?F cs) = _ => assert (HM : dget f (map F cs) = option_map (fun c => c ++ [(last ts 0 + (last ts 0 - hd 0 ts) / INR (length ts - 1), first_y c)]) (dget f cs)) end.
    { clear. induction cs as [|[k c] cs IH]; simpl; auto. destruct (String.eqb f k); auto. }
    pose proof (eq_trans (eq_sym HM) HC) as HC'. destruct (dget f cs) as [c0|] eqn:E0; [|discriminate]. simpl in HC'. inversion HC'; subst c. clear HC'. clear HC HM.
    destruct (md_curves _ _ _ _ _ _ _ _ _ _ M f c0 E0) as (ms & SM & -> & LEN). exists ms. split; auto. split; auto.
    destruct (combine_ends ts (map mag2flux ms) ltac:(rewrite map_length; lia) NE) as (E1 & E2 & _). split.
    { rewrite <- E1. unfold first_x. destruct ts as [|a ts]; [congruence|]. destruct ms; [discriminate|]. reflexivity. }
    split; [intros; apply in_or_app; left; apply CB; auto|]. right. split; [|unfold last_x; rewrite last_last; reflexivity].
    assert (EG : dget g cs = Some cg) by (apply In_dget; auto; apply M). destruct (md_curves _ _ _ _ _ _ _ _ _ _ M g cg EG) as (mg & SMG & -> & LG).
    exists g, mg. split; [eapply dget_keys; congruence|]. split; auto. split; [eauto|].
    destruct (combine_ends ts (map mag2flux mg) ltac:(rewrite map_length; lia) NE) as (_ & _ & E3 & E4). rewrite E3, E4 in OP. destruct (HL mg 0 (EN _ _ SMG LG)) as [X1 X2]. rewrite X1, X2 in OP. exact OP.
Qed.
(** Without a forced epoch, the reference epoch is the time of the first source row. *)
Theorem C100_epoch : forall ord (t : table) filters lc, well_formed t -> only_permutes ord -> from_lclib_table ord t None filters = Ok lc -> first_time t (lc_t0 lc).
Proof.
  intros ord t filters lc WF HO H. open_table H WF HO. destruct (md_increasing _ _ _ _ _ _ _ _ _ _ M (keys_ne _ _ _ _ _ _ H FK)) as (I & NE).
  pose proof (md_times _ _ _ _ _ _ _ _ _ _ M) as HT. pose proof (md_t0 _ _ _ _ _ _ _ _ _ _ M) as H0. simpl in H0. destruct (md_lc _ _ _ _ _ _ _ _ _ _ M) as (b' & ML).
  pose proof (first_time_min _ _ _ HT H0) as FT. destruct (C48_reference _ _ _ _ _ _ _ ML) as [->|(-> & E0 & f & c & DC & EL & BIG)]; auto. exfalso.
  rewrite as_tabs_data in DC. destruct (periodic_curve _ _ _ _ _ _ _ _ _ _ _ M NE DC) as (ms & _ & _ & EX & _). rewrite EX in BIG. rewrite <- (min_hd _ _ I NE H0) in BIG.
  rewrite E0, Rabs_R0 in BIG. assert (0 < 1 / 10 ^ 8) by (apply Rdiv_lt_0_compat; [lra|apply pow_lt; lra]). lra.
Qed.
(** A forced epoch is used as it is when the light curve does not repeat; a periodic light curve accepts only the
    time of its first source row (to 1e-8), or zero, which is replaced by that time. *)
Theorem C100_forced : forall ord (t : table) x filters lc, well_formed t -> only_permutes ord -> from_lclib_table ord t (Some x) filters = Ok lc ->
  (~ is_periodic t -> lc_t0 lc = x) /\
  (is_periodic t -> exists a, first_time t a /\ ((lc_t0 lc = x /\ Rabs (a - x) <= 1 / 10 ^ 8) \/ (x = 0 /\ lc_t0 lc = a))).
Proof.
  intros ord t x filters lc WF HO H. open_table H WF HO. destruct (md_increasing _ _ _ _ _ _ _ _ _ _ M (keys_ne _ _ _ _ _ _ H FK)) as (I & NE).
  pose proof (md_times _ _ _ _ _ _ _ _ _ _ M) as HT. pose proof (md_t0 _ _ _ _ _ _ _ _ _ _ M) as H0. simpl in H0. subst t0. destruct (md_lc _ _ _ _ _ _ _ _ _ _ M) as (b' & ML).
  destruct (not_periodic_class _ _ (md_class _ _ _ _ _ _ _ _ _ _ M)) as [P1 P2]. destruct (first_time_hd _ _ HT I NE) as [FT _]. split.
  - intros NP. destruct (C48_reference _ _ _ _ _ _ _ ML) as [->|(-> & _)]; auto. exfalso; auto.
  - intros P. apply P2 in P. subst periodic. exists (hd 0 ts0). split; auto.
    destruct (C48_reference _ _ _ _ _ _ _ ML) as [E|(_ & E0 & f & c & DC & EL & BIG)].
    + left. split; auto. destruct (make_lc_inv _ _ _ _ _ _ _ ML) as (d & c1 & HP & HC & _ & (p & HV & _) & _). simpl in HP. inversion HP; subst d. clear HP.
      destruct (validate_periodicity_inv _ _ _ _ _ HV) as (f0 & c0 & rest & EC & L2 & _ & _ & _ & [(CL & _)|(CL & E0 & E1 & _)]).
      * pose proof (F2_dget _ _ (fun a b => check_curve x false a = Ok b) _ _ f0 HC) as FG. rewrite EC in FG. simpl in FG. rewrite String.eqb_refl in FG.
        pose proof (as_tabs_data cs' f0) as AD. simpl in AD. destruct (dget f0 (map _ cs')) as [tb|]; [|tauto]. simpl in AD. symmetry in AD.
        destruct (periodic_curve _ _ _ _ _ _ _ _ _ _ _ M NE AD) as (ms & _ & _ & EX & _). apply check_inv in FG. destruct FG as (_ & _ & FG). subst c0.
        rewrite map_length in L2. rewrite first_x_map in CL by (destruct (tb_rows tb); [simpl in L2; lia|discriminate]). simpl in CL. unfold first_x in EX. rewrite EX in CL.
        unfold isclose in CL. apply Rleb_true in CL. rewrite Rabs_R0, Rmult_0_r, Rplus_0_r, Rminus_0_r in CL. exact CL.
      * rewrite <- E1, E, E0 in CL. unfold isclose in CL. apply Rleb_false in CL. rewrite Rminus_0_r, Rabs_R0 in CL.
        assert (0 < 1 / 10 ^ 8) by (apply Rdiv_lt_0_compat; [lra|apply pow_lt; lra]). lra.
    + right. split; auto. rewrite as_tabs_data in DC. destruct (periodic_curve _ _ _ _ _ _ _ _ _ _ _ M NE DC) as (ms & _ & _ & EX & _). congruence.
Qed.

(** ** Periodic light curves *)
(** What [np.isclose] means. *)
Definition nearly (a b : R) : Prop := Rabs (a - b) <= 1 / 10 ^ 8 + 1 / 10 ^ 5 * Rabs b.
(** The fluxes of filter [f] in the first and in the last source row are nearly equal. *)
Definition closed (t : table) (f : string) : Prop :=
  forall a b i k m1 m2, first_time t a -> last_time t b -> has_time t i a -> has_time t k b -> num_at t f i = Some m1 -> num_at t f k = Some m2 ->
  nearly (mag2flux m1) (mag2flux m2).
(** The number of source rows. *)
Definition source_count (t : table) (n : nat) : Prop :=
  exists l, NoDup l /\ (forall i, In i l <-> has_row t i /\ row_source t i) /\ length l = n.
Lemma nth_hd : forall (l : list R), l <> [] -> nth_error l 0 = Some (hd 0 l).
Proof. intros [|a l] H; [congruence|reflexivity]. Qed.
Lemma nth_last : forall (l : list R), l <> [] -> nth_error l (length l - 1) = Some (last l 0).
Proof.
  induction l as [|a l IH]; intros H; [congruence|]. destruct l as [|b l]; [reflexivity|]. rewrite last_cons2 by discriminate. rewrite <- IH by discriminate.
  simpl. now rewrite Nat.sub_0_r.
Qed.
Lemma inc_pos : forall l i j x, increasing l -> nth_error l i = Some x -> nth_error l j = Some x -> i = j.
Proof.
  intros l i j x HI A B. destruct (lt_eq_lt_dec i j) as [[L|]|L]; auto; exfalso.
  - pose proof (increasing_nth l i j x x HI A B L). lra.
  - pose proof (increasing_nth l j i x x HI B A L). lra.
Qed.
Lemma mask_count : forall A (m : list bool) (l : list A), length (mask_list m l) = length (filter (fun i => nth i m false) (seq 0 (length l))).
Proof.
  intros A m. induction m as [|b m IH]; intros [|a l]; simpl; auto.
  - assert (X : forall s, filter (fun i => match i with O | _ => false end) s = []) by (induction s as [|[|i] s IHs]; auto). now rewrite X.
  - assert (X : length (filter (fun i => nth i (b :: m) false) (seq 1 (length l))) = length (mask_list m l)).
    { rewrite IH, <- seq_shift. generalize (seq 0 (length l)). induction l0 as [|i l0 IHl]; simpl; auto. destruct (nth i m false); simpl; auto. }
    destruct b; simpl; simpl in X; rewrite X; reflexivity.
Qed.
Lemma count_times : forall (t : table) ts, src_nums t "time" ts -> source_count t (length ts).
Proof.
  intros t ts [HM E]. destruct (dget_some _ _ _ HM) as (l & EL). unfold src in E. rewrite EL in E.
  exists (filter (fun i => nth i (mask_of t) false) (seq 0 (length l))). split; [apply NoDup_filter, seq_NoDup|]. split.
  - intros i. rewrite filter_In, in_seq. split.
    + intros [L N]. assert (HR : has_row t i) by (exists l; split; [auto|lia]). split; auto. apply source_mask; auto.
      destruct (nth_error (mask_of t) i) as [b|] eqn:EN; [rewrite (nth_error_nth _ _ false EN) in N; congruence|]. apply nth_error_None in EN. rewrite nth_overflow in N by auto. discriminate.
    + intros [HR HS]. pose proof HR as (l' & EL' & L). assert (l' = l) as -> by congruence. split; [lia|]. apply source_mask in HS; auto. apply nth_error_nth with (d := false) in HS. auto.
  - rewrite <- mask_count, E, map_length. reflexivity.
Qed.
Lemma count_unique : forall t a b, source_count t a -> source_count t b -> a = b.
Proof.
  intros t a b (l & N1 & E1 & <-) (k & N2 & E2 & <-). apply Nat.le_antisymm; apply NoDup_incl_length; auto; intros i Hi; [apply E2, E1|apply E1, E2]; auto.
Qed.
Lemma closed_ends : forall (t : table) ts f ms, src_nums t "time" ts -> increasing ts -> ts <> [] -> src_nums t f ms -> length ms = length ts ->
  (forall i m, has_time t i (hd 0 ts) -> num_at t f i = Some m -> m = hd 0 ms) /\ (forall i m, has_time t i (last ts 0) -> num_at t f i = Some m -> m = last ms 0).
Proof.
  intros t ts f ms HT HI NE SM LEN. assert (NM : ms <> []) by (intros ->; destruct ts; [congruence|discriminate]).
  assert (G : forall i x m j, has_time t i x -> nth_error ts j = Some x -> num_at t f i = Some m -> nth_error ms j = Some m).
  { intros i x m j [HS HX] HJ HM. pose proof (timed_row _ _ _ HX) as HR. pose proof (row_in _ _ _ _ _ HT HR HS HX) as E. rewrite (inc_pos _ _ _ _ HI HJ E). eapply row_in; eauto. }
  split; intros i m HH HM.
  - pose proof (G i _ m 0%nat HH (nth_hd ts NE) HM) as E. rewrite nth_hd in E by auto. congruence.
  - pose proof (G i _ m _ HH (nth_last ts NE) HM) as E. rewrite <- LEN, nth_last in E by auto. congruence.
Qed.
Lemma isclose_nearly : forall a b, isclose a b = true <-> nearly a b.
Proof. intros a b. unfold isclose, nearly. apply Rleb_true. Qed.
Lemma last_time_unique : forall (t : table) a b, last_time t a -> last_time t b -> a = b.
Proof. intros t a b [(i & A) HA] [(j & B) HB]. pose proof (HA j b B). pose proof (HB i a A). lra. Qed.
(** A row whose time is known has a number in every kept column of an accepted table. *)
Lemma row_num : forall (t : table) ts f ms i x, src_nums t "time" ts -> src_nums t f ms -> well_formed t -> has_time t i x -> exists m, num_at t f i = Some m.
Proof.
  intros t ts f ms i x HT [HM E] [_ (n & WF)] [HS HX]. pose proof (timed_row _ _ _ HX) as HR. apply source_mask in HS; auto. destruct (dget_some _ _ _ HM) as (l & EL). unfold src in E. rewrite EL in E.
  destruct HR as (lt & ELT & L). rewrite (WF _ _ (dget_In _ _ _ _ ELT)), <- (WF _ _ (dget_In _ _ _ _ EL)) in L. destruct (nth_error l i) as [c|] eqn:EN; [|apply nth_error_None in EN; lia].
  pose proof (mask_rank _ _ _ _ _ HS EN) as X. rewrite E, nth_error_map in X. destruct (nth_error ms _) as [r|]; [|discriminate]. simpl in X. inversion X; subst c. exists r. unfold num_at. now rewrite EL, EN.
Qed.
(** The period is the time from the first to the last source row when every filter closes; otherwise one mean
    spacing is added to it. *)
Theorem C100_period : forall ord (t : table) forced filters lc, well_formed t -> only_permutes ord -> from_lclib_table ord t forced filters = Ok lc -> is_periodic t ->
  exists p a b n, lc_period lc = Some p /\ first_time t a /\ last_time t b /\ source_count t n /\ (2 <= n)%nat /\ 0 < p /\
    ((forall f, kept t filters f -> closed t f) -> p = b - a) /\
    ((exists f, kept t filters f /\ ~ closed t f) -> p = (b - a) + (b - a) / INR (n - 1)) /\
    (forall f ts (ks : R -> Z), lc_evaluate lc (map (fun q => q + IZR (ks q) * p) ts) f = lc_evaluate lc ts f).
Proof.
  intros ord t forced filters lc WF HO H P. open_table H WF HO. destruct (md_increasing _ _ _ _ _ _ _ _ _ _ M (keys_ne _ _ _ _ _ _ H FK)) as (I & NE).
  destruct (not_periodic_class _ _ (md_class _ _ _ _ _ _ _ _ _ _ M)) as [_ P2]. apply P2 in P. subst periodic. pose proof (md_times _ _ _ _ _ _ _ _ _ _ M) as HT.
  destruct (md_lc _ _ _ _ _ _ _ _ _ _ M) as (b' & ML). destruct (C48_periodic _ _ _ _ _ _ ML) as (p & f0 & c0 & EP & DC & PE & PP & REP).
  rewrite as_tabs_data in DC. destruct (periodic_curve _ _ _ _ _ _ _ _ _ _ _ M NE DC) as (ms & SM & LEN & EX & _ & CASES). destruct (first_time_hd _ _ HT I NE) as [FT LT].
  exists p, (hd 0 ts0), (last ts0 0), (length ts0). split; auto. split; auto. split; auto. split; [now apply count_times|].
  assert (PNE : forall g mg, src_nums t g mg -> length mg = length ts0 -> mg <> []) by (intros g mg _ EL ->; destruct ts0; [congruence|discriminate]).
  assert (L2 : (2 <= length ts0)%nat).
  { destruct ts0 as [|a [|b ts0]]; [congruence| |simpl; lia]. exfalso. destruct CASES as [[_ EL]|[_ EL]]; rewrite PE, EL, EX in PP; simpl in PP.
    - lra.
    - unfold Rdiv in PP. rewrite (Rminus_diag_eq a a eq_refl), Rmult_0_l in PP. lra. }
  split; auto. split; auto. split; [|split; auto].
  - intros AC. destruct CASES as [[_ EL]|[(g & mg & HG & SG & NG & OP) _]]; [lra|]. exfalso. apply (md_kept _ _ _ _ _ _ _ _ _ _ M) in HG. specialize (AC g HG).
    destruct FT as [(i & Hi) FT]. destruct LT as [(k & Hk) LT]. assert (LG : length mg = length ts0) by (eapply src_len; eauto).
    destruct (row_num _ _ _ _ _ _ HT SG WF Hi) as (m1 & M1). destruct (row_num _ _ _ _ _ _ HT SG WF Hk) as (m2 & M2).
    assert (X : nearly (mag2flux m1) (mag2flux m2)) by (apply (AC (hd 0 ts0) (last ts0 0) i k); auto; split; eauto).
    destruct (closed_ends _ _ _ _ HT I NE SG LG) as [Q1 Q2]. rewrite (Q1 _ _ Hi M1), (Q2 _ _ Hk M2) in X. apply isclose_nearly in X. congruence.
  - intros (f & HK & NC). destruct CASES as [[AC EL]|[_ EL]]; [|rewrite PE, EL, EX; lra]. exfalso. apply NC. intros a b i k m1 m2 FA LB HA HB M1 M2.
    assert (a = hd 0 ts0) as -> by (eapply first_time_unique; eauto). assert (b = last ts0 0) as -> by (eapply last_time_unique; eauto).
    assert (HKD : In f (dkeys cs)) by (now apply M). pose proof HKD as HKD2. apply dget_keys in HKD2. destruct (dget f cs) as [cf|] eqn:EF; [|congruence].
    destruct (md_curves _ _ _ _ _ _ _ _ _ _ M f cf EF) as (mf & SF & _ & LF). destruct (closed_ends _ _ _ _ HT I NE SF LF) as [Q1 Q2].
    rewrite (Q1 _ _ HA M1), (Q2 _ _ HB M2). apply isclose_nearly. apply (AC f); auto. exists mf. split; eauto.
Qed.
(** Within a period the light curve goes through the source rows (all of them when a row was added, all but the last
    otherwise: there the curve starts again). *)
Theorem C100_periodic_at_rows : forall ord (t : table) filters lc f i x m p (k : Z) ts j out, well_formed t -> only_permutes ord ->
  from_lclib_table ord t None filters = Ok lc -> is_periodic t -> kept t filters f -> row_source t i -> num_at t "time" i = Some x -> num_at t f i = Some m ->
  lc_period lc = Some p -> x < lc_t0 lc + p -> nth_error ts j = Some (x - lc_t0 lc + IZR k * p) -> lc_evaluate lc ts f = Ok out ->
  nth_error out j = Some (mag2flux m).
Proof.
  intros ord t filters lc f i x m p k ts j out WF HO H P HK HS HX HM HP HL HJ HE. pose proof (C100_epoch _ _ _ _ WF HO H) as FT0. open_table H WF HO.
  destruct (md_increasing _ _ _ _ _ _ _ _ _ _ M (keys_ne _ _ _ _ _ _ H FK)) as (I & NE). pose proof (md_times _ _ _ _ _ _ _ _ _ _ M) as HT.
  destruct (not_periodic_class _ _ (md_class _ _ _ _ _ _ _ _ _ _ M)) as [_ P2]. apply P2 in P. subst periodic. destruct (md_lc _ _ _ _ _ _ _ _ _ _ M) as (b' & ML).
  destruct (first_time_hd _ _ HT I NE) as [FT _]. pose proof (first_time_unique _ _ _ FT0 FT) as E0. destruct (C48_periodic _ _ _ _ _ _ ML) as (p' & f0 & c0 & EP & DC & PE & PP & _).
  assert (p' = p) as -> by congruence. rewrite as_tabs_data in DC. destruct (periodic_curve _ _ _ _ _ _ _ _ _ _ _ M NE DC) as (ms0 & SM0 & _ & EX0 & _ & C0).
  assert (K : dkeys cs' = dkeys cs) by (eapply wrap_keys; apply (md_wrap _ _ _ _ _ _ _ _ _ _ M)). apply (md_kept _ _ _ _ _ _ _ _ _ _ M) in HK. rewrite <- K in HK. apply dget_keys in HK.
  destruct (dget f cs') as [c|] eqn:EC; [|congruence]. destruct (periodic_curve _ _ _ _ _ _ _ _ _ _ _ M NE EC) as (ms & SM & LEN & EX & IC & C1).
  assert (LX : last_x c = last_x c0).
  { destruct C0 as [[A0 L0]|[(g0 & mg0 & A0 & B0 & D0 & E00) L0]]; destruct C1 as [[A1 L1]|[(g1 & mg1 & A1 & B1 & D1 & E1) L1]]; try congruence; exfalso.
    - rewrite (A0 g1 (hd 0 mg1) (last mg1 0) A1) in E1; [discriminate|eauto].
    - rewrite (A1 g0 (hd 0 mg0) (last mg0 0) A0) in E00; [discriminate|eauto]. }
  change (mag2flux m) with (as_flux false (mag2flux m)).
  eapply (C48_periodic_at_data _ _ _ _ _ _ f c p x (mag2flux m) k ts j out ML HP); auto; [rewrite as_tabs_data; auto|congruence|rewrite PE, EX, EX0, LX; lra| |].
  - apply IC. eapply nth_error_In. apply nth_combine; eapply row_in; eauto; eapply timed_row; eauto.
  - rewrite PE in HL. rewrite EX0 in HL. rewrite LX. lra.
Qed.
