(** C100: the light curves made from LCLIB tables (LclibTable). *)
From Coq Require Import Reals String Ascii List Bool Arith ZArith Lia Lra Permutation.
From Verif Require Import Base BaseFacts RealBase PassbandModel ObsTableModel SedModel NoiseModel.
From Verif Require LclibModel.
From Verif Require Import TemplateModel TemplateProps LclibTable.
Import ListNotations.
Open Scope R_scope.

(** ** Vocabulary *)
(** What astropy guarantees of a table: distinct column names, columns of equal length. *)
Definition well_formed (t : table) : Prop :=
  NoDup (dkeys (t_cols t)) /\ exists n, forall k c, In (k, c) (t_cols t) -> length c = n.
(** Row [i] is a source observation: of type "S", or the table has no types. *)
Definition row_source (t : table) (i : nat) : Prop :=
  match dget "type" (t_cols t) with None => True | Some ty => nth_error ty i = Some (CText "S") end.
(** The number in row [i] of the column [name]. *)
Definition num_at (t : table) (name : string) (i : nat) : option R :=
  match dget name (t_cols t) with
  | None => None
  | Some l => match nth_error l i with Some (LclibModel.CNum r) => Some r | _ => None end
  end.
(** Column [name] has a row [i]. *)
Definition has_row (t : table) (i : nat) : Prop := exists l, dget "time" (t_cols t) = Some l /\ (i < length l)%nat.
(** The iteration order of a set. *)
Definition only_permutes (ord : list string -> list string) : Prop := forall l, Permutation (ord l) l.
(** The filters asked for. *)
Definition kept (t : table) (filters : option (list string)) (f : string) : Prop :=
  In f (dkeys (t_cols t)) /\ f <> "time"%string /\ f <> "type"%string /\ match filters with None => True | Some l => In f l end.
Definition class_of (t : table) (s : string) : Prop := dget "RECUR_CLASS" (t_meta t) = Some (LclibModel.MText s).
Definition is_periodic (t : table) : Prop := class_of t "PERIODIC" \/ class_of t "RECUR-PERIODIC".

(** ** Lists *)
Fixpoint rank (m : list bool) (i : nat) : nat :=
  match i, m with
  | O, _ => O
  | S i', b :: m' => (if b then 1 else 0) + rank m' i'
  | S _, [] => O
  end%nat.
Lemma mask_rank : forall A m (l : list A) i x, nth_error m i = Some true -> nth_error l i = Some x -> nth_error (mask_list m l) (rank m i) = Some x.
Proof.
  intros A m. induction m as [|b m IH]; intros [|a l] i x HM HL; destruct i; simpl in *; try discriminate.
  - inversion HM; inversion HL; subst. reflexivity.
  - destruct b; simpl; apply IH; auto.
Qed.
Lemma rank_next : forall m i k, nth_error m i = Some true -> (i < k)%nat -> (forall j, (i < j < k)%nat -> nth_error m j = Some false) -> rank m k = S (rank m i).
Proof.
  induction m as [|b m IH]; intros i k HI LT HB; [destruct i; discriminate|]. destruct k as [|k]; [lia|]. destruct i as [|i]; simpl in *.
  - inversion HI; subst b. simpl. f_equal. assert (Z : forall q n, (n <= k)%nat -> (forall j, (j < n)%nat -> nth_error q j = Some false) -> rank q n = 0%nat).
    { induction q as [|b q IHq]; intros [|n] LE Hq; simpl; auto. pose proof (Hq 0%nat ltac:(lia)) as E. simpl in E. inversion E; subst b. simpl. apply IHq; [lia|].
      intros j Hj. apply (Hq (S j)). lia. }
    apply Z; [lia|]. intros j Hj. apply (HB (S j)). lia.
  - rewrite (IH i k HI ltac:(lia)); [destruct b; simpl; lia|]. intros j Hj. apply (HB (S j)). lia.
Qed.
Lemma mask_back : forall A m (l : list A) j x, nth_error (mask_list m l) j = Some x -> exists i, nth_error m i = Some true /\ nth_error l i = Some x /\ rank m i = j.
Proof.
  intros A m. induction m as [|b m IH]; intros [|a l] j x H; simpl in H; try (destruct j; discriminate). destruct b.
  - destruct j as [|j]; [exists 0%nat; inversion H; subst; auto|]. destruct (IH l j x H) as (i & A1 & A2 & A3). exists (S i). simpl. auto.
  - destruct (IH l j x H) as (i & A1 & A2 & A3). exists (S i). simpl. auto.
Qed.
Lemma mask_all : forall A n (l : list A), length l = n -> mask_list (repeat true n) l = l.
Proof. intros A n. induction n as [|n IH]; intros [|a l] E; simpl in *; try discriminate; auto. f_equal. apply IH. lia. Qed.
Lemma mask_len2 : forall A B m (l : list A) (l' : list B), length l = length l' -> length (mask_list m l) = length (mask_list m l').
Proof. intros A B m. induction m as [|b m IH]; intros [|a l] [|a' l'] E; simpl in *; try discriminate; auto. destruct b; simpl; auto. Qed.

(** ** Reading a table *)
Definition mask_of (t : table) : list bool :=
  match dget "type" (t_cols t) with
  | Some ty => map is_obs ty
  | None => match dget "time" (t_cols t) with Some l => repeat true (length l) | None => [] end
  end.
Definition src (t : table) (name : string) : list cell := match dget name (t_cols t) with Some l => mask_list (mask_of t) l | None => [] end.
Definition src_nums (t : table) (name : string) (rs : list R) : Prop := dmem name (t_cols t) = true /\ src t name = map CNum rs.
Lemma source_mask : forall (t : table) i, has_row t i -> (row_source t i <-> nth_error (mask_of t) i = Some true).
Proof.
  intros t i (l & E & L). unfold row_source, mask_of. destruct (dget "type" (t_cols t)) as [ty|] eqn:ET.
  - rewrite nth_error_map. destruct (nth_error ty i) as [c|]; simpl; [|split; discriminate]. destruct c as [s|r]; simpl.
    + split; intros H; [inversion H; subst; reflexivity|]. inversion H as [H1]. apply String.eqb_eq in H1. now subst.
    + split; discriminate.
  - rewrite E. split; auto. intros _. apply nth_error_repeat. auto.
Qed.
Lemma not_source_mask : forall (t : table) i, well_formed t -> has_row t i -> ~ row_source t i -> nth_error (mask_of t) i = Some false.
Proof.
  intros t i [ND (n & WF)] HR HN. destruct (nth_error (mask_of t) i) as [[|]|] eqn:E; auto.
  - exfalso. apply HN. now apply source_mask.
  - exfalso. destruct HR as (l & EL & L). unfold mask_of in E. unfold row_source in HN. destruct (dget "type" (t_cols t)) as [ty|] eqn:ET; [|auto].
    apply nth_error_None in E. rewrite map_length in E. apply dget_In in ET. apply dget_In in EL. rewrite (WF _ _ ET), <- (WF _ _ EL) in E. lia.
Qed.
Lemma col_nums_inv : forall l rs, col_nums l = Ok rs -> l = map CNum rs.
Proof.
  intros l rs. unfold col_nums. enough (G : forall acc, fold_res (fun acc c => bind (cell_num c) (fun r => Ok (acc ++ [r]))) acc l = Ok rs -> exists q, rs = acc ++ q /\ l = map CNum q).
  { intros H. destruct (G [] H) as (q & -> & E). exact E. }
  induction l as [|c l IH]; intros acc H; simpl in H.
  - inversion H; subst. exists []. rewrite app_nil_r. auto.
  - destruct c as [s|r]; [discriminate|]. simpl in H. destruct (IH _ H) as (q & -> & ->). exists (r :: q). rewrite <- app_assoc. auto.
Qed.
Lemma col_nums_ok : forall rs, col_nums (map CNum rs) = Ok rs.
Proof.
  intros rs. unfold col_nums. enough (G : forall acc, fold_res (fun acc c => bind (cell_num c) (fun r => Ok (acc ++ [r]))) acc (map CNum rs) = Ok (acc ++ rs)) by apply (G []).
  induction rs as [|r rs IH]; intros acc; simpl; [now rewrite app_nil_r|]. rewrite IH, <- app_assoc. reflexivity.
Qed.
Lemma collect_inv : forall A (F : string -> result A) fs d, NoDup fs -> collect F fs = Ok d -> dkeys d = fs /\ forall f, In f fs -> exists a, F f = Ok a /\ dget f d = Some a.
Proof.
  intros A F fs d ND. unfold collect.
  enough (G : forall fs acc, NoDup fs -> (forall f, In f fs -> ~ In f (dkeys acc)) ->
    forall d, fold_res (fun acc f => bind (F f) (fun a => Ok (dset f a acc))) acc fs = Ok d ->
    dkeys d = (dkeys acc ++ fs)%list /\ (forall f, In f fs -> exists a, F f = Ok a /\ dget f d = Some a) /\ (forall f, ~ In f fs -> dget f d = dget f acc)).
  { intros H. destruct (G fs [] ND ltac:(simpl; auto) d H) as (A1 & A2 & _). auto. }
  clear fs d ND. induction fs as [|f fs IH]; intros acc ND NI d H; simpl in H.
  - inversion H; subst. rewrite app_nil_r. repeat split; auto; intros g [].
  - inversion ND; subst. destruct (F f) as [a|] eqn:EF; [|discriminate]. simpl in H. apply IH in H; auto.
    + destruct H as (HA & HB & HC). rewrite dkeys_dset in HA.
      assert (EM : dmem f acc = false) by (apply dmem_false; apply NI; left; auto).
      rewrite EM, <- app_assoc in HA. split; [exact HA|]. split.
      * intros g [->|Hg]; [exists a; split; auto|auto]. rewrite HC by auto. apply dget_dset_same.
      * intros g Hg. rewrite HC by (intros X; apply Hg; right; auto). apply dget_dset_other. intros ->. apply Hg. left; auto.
    + intros g Hg X. apply In_dkeys_dset in X. destruct X as [->|X]; [contradiction|]. apply (NI g); [right|]; auto.
Qed.
Lemma collect_ok : forall A (F : string -> result A) fs, (forall f, In f fs -> exists a, F f = Ok a) -> exists d, collect F fs = Ok d.
Proof.
  intros A F fs. unfold collect. generalize (@nil (string * A)). induction fs as [|f fs IH]; intros acc H; simpl; [eauto|].
  destruct (H f (or_introl eq_refl)) as (a & ->). simpl. apply IH. intros; apply H; right; auto.
Qed.

Lemma dget_some : forall V k (d : dict V), dmem k d = true -> exists v, dget k d = Some v.
Proof. intros V k d H. apply dmem_true in H. apply dget_keys in H. destruct (dget k d); [eauto|congruence]. Qed.
Lemma dget_mcols : forall m name (d : dict (list cell)), dget name (mask_cols m d) = option_map (mask_list m) (dget name d).
Proof. intros m name d. unfold mask_cols. induction d as [|[k c] d IH]; simpl; auto. destruct (String.eqb name k); auto. Qed.
Lemma filters_NoDup : forall ord (t : table) filters, well_formed t -> only_permutes ord -> NoDup (lib_filters ord (t_cols t) filters).
Proof.
  intros ord t filters [ND _] HO. unfold lib_filters. destruct filters as [l|]; [|now apply NoDup_filter].
  eapply Permutation_NoDup; [apply Permutation_sym, HO|]. now apply NoDup_filter, NoDup_filter.
Qed.
Lemma filters_kept : forall ord (t : table) filters f, only_permutes ord -> (In f (lib_filters ord (t_cols t) filters) <-> kept t filters f).
Proof.
  intros ord t filters f HO. unfold lib_filters, kept.
  assert (B : In f (filter (fun c => (negb (String.eqb c "time") && negb (String.eqb c "type"))%bool) (dkeys (t_cols t))) <->
              In f (dkeys (t_cols t)) /\ f <> "time"%string /\ f <> "type"%string).
  { rewrite filter_In, andb_true_iff, !negb_true_iff, !String.eqb_neq. tauto. }
  destruct filters as [l|]; [|rewrite B; tauto].
  assert (P : forall x l, In x (ord l) <-> In x l) by (intros; split; apply Permutation_in; [|apply Permutation_sym]; apply HO).
  rewrite P, filter_In, B, smem_In. tauto.
Qed.
(** The baseline of a filter: the flux of the first row that is not a source, or zero. *)
Definition base_spec (t : table) (f : string) (v : R) : Prop :=
  (exists i m, has_row t i /\ ~ row_source t i /\ (forall j, (j < i)%nat -> row_source t j) /\ num_at t f i = Some m /\ v = mag2flux m) \/
  ((forall i, has_row t i -> row_source t i) /\ v = 0).
Lemma first_template : forall A (m : list bool) (l : list A) c rest, mask_list (map negb m) l = c :: rest ->
  exists i, nth_error m i = Some false /\ nth_error l i = Some c /\ forall j, (j < i)%nat -> nth_error m j = Some true.
Proof.
  intros A m. induction m as [|b m IH]; intros [|a l] c rest H; simpl in H; try discriminate. destruct b; simpl in H.
  - destruct (IH l c rest H) as (i & A1 & A2 & A3). exists (S i). repeat split; auto. intros [|j] L; simpl; auto. apply A3. lia.
  - inversion H; subst. exists 0%nat. repeat split; auto. intros; lia.
Qed.
Lemma split_inv : forall ord (t : table) filters base d, well_formed t -> only_permutes ord -> dmem "time" (t_cols t) = true ->
  split_types (lib_filters ord (t_cols t) filters) (t_cols t) = Ok (base, d) ->
  dkeys base = lib_filters ord (t_cols t) filters /\ (forall f, In f (dkeys base) -> exists v, dget f base = Some v /\ base_spec t f v) /\
  (forall name, option_map (fun _ => src t name) (dget name (t_cols t)) = dget name d).
Proof.
  intros ord t filters base d WF HO HT H. unfold split_types in H. pose proof (filters_NoDup ord t filters WF HO) as ND.
  set (fs := lib_filters ord (t_cols t) filters) in *.
  assert (ZK : forall l : list string, dkeys (map (fun f => (f, 0)) l) = l) by (intros l; unfold dkeys; rewrite map_map; apply map_id).
  assert (ZG : forall l f, In f l -> dget f (map (fun f => (f, 0)) l) = Some 0).
  { induction l as [|g l IH]; intros f Hf; simpl in *; [destruct Hf|]. destruct (String.eqb f g) eqn:E; auto. destruct Hf as [<-|Hf]; [now rewrite String.eqb_refl in E|auto]. }
  destruct (dget "type" (t_cols t)) as [ty|] eqn:ET.
  - match type of H with bind ?X _ = _ => destruct X as [b|] eqn:EB end; [|discriminate]. simpl in H. injection H as <- <-.
    assert (SRC : forall name, option_map (fun _ => src t name) (dget name (t_cols t)) = dget name (mask_cols (map is_obs ty) (t_cols t))).
    { intros name. rewrite dget_mcols. unfold src, mask_of. rewrite ET. destruct (dget name (t_cols t)); reflexivity. }
    destruct (existsb negb (map is_obs ty)) eqn:EX.
    + destruct (collect_inv _ _ _ _ ND EB) as (K & G). split; auto. split; auto. rewrite K. intros f Hf. destruct (G f Hf) as (v & EV & DV). exists v. split; auto. left.
      unfold base_of, column in EV. rewrite dget_mcols in EV. destruct (dget f (t_cols t)) as [fc|] eqn:EF; [|discriminate]. simpl in EV.
      destruct (mask_list (map negb (map is_obs ty)) fc) as [|c rest] eqn:EM; [discriminate|]. destruct (first_template _ _ _ _ _ EM) as (i & I1 & I2 & I3).
      destruct c as [s|m]; [discriminate|]. simpl in EV. inversion EV; subst v. exists i, m.
      assert (HR : forall j, (j <= i)%nat -> has_row t j).
      { intros j Lj. destruct (dget_some _ _ _ HT) as (l & EL). exists l. split; auto. destruct WF as [_ (n & WF)].
        rewrite (WF _ _ (dget_In _ _ _ _ EL)). rewrite <- (WF _ _ (dget_In _ _ _ _ EF)). assert (i < length fc)%nat by (apply nth_error_Some; congruence). lia. }
      assert (MK : mask_of t = map is_obs ty) by (unfold mask_of; now rewrite ET).
      split; [apply HR; lia|]. split; [intros X; apply source_mask in X; [rewrite MK, I1 in X; discriminate|apply HR; lia]|].
      split; [intros j Lj; apply source_mask; [apply HR; lia|rewrite MK; auto]|]. split; auto. unfold num_at. now rewrite EF, I2.
    + inversion EB; subst b. rewrite ZK. split; auto. split; auto. intros f Hf. exists 0. split; auto. right. split; auto. intros i HR. apply source_mask; auto.
      destruct (nth_error (mask_of t) i) as [[|]|] eqn:EN; auto; exfalso.
      * unfold mask_of in EN. rewrite ET in EN. assert (X : existsb negb (map is_obs ty) = true) by (apply existsb_exists; exists false; split; auto; eapply nth_error_In; eauto). congruence.
      * destruct HR as (l & EL & L). unfold mask_of in EN. rewrite ET in EN. apply nth_error_None in EN. rewrite map_length in EN. destruct WF as [_ (n & WF)].
        rewrite (WF _ _ (dget_In _ _ _ _ ET)) in EN. rewrite (WF _ _ (dget_In _ _ _ _ EL)) in L. lia.
  - injection H as <- <-. rewrite ZK. split; auto. split.
    + intros f Hf. exists 0. split; auto. right. split; auto. intros i _. unfold row_source. now rewrite ET.
    + intros name. unfold src, mask_of. rewrite ET. destruct (dget name (t_cols t)) as [l|] eqn:EL; auto. simpl. f_equal.
      destruct (dget_some _ _ _ HT) as (lt & ELT). rewrite ELT. symmetry. rewrite mask_all; auto. destruct WF as [_ (n & WF)].
      rewrite (WF _ _ (dget_In _ _ _ _ EL)), (WF _ _ (dget_In _ _ _ _ ELT)). reflexivity.
Qed.

Definition as_tabs (cs : dict curve) : lcin := LDict (map (fun fc => (fst fc, mkTab 2 (snd fc))) cs).
Lemma as_tabs_data : forall cs f, data_of (as_tabs cs) f = dget f cs.
Proof. intros cs f. simpl. induction cs as [|[k c] cs IH]; simpl; auto. destruct (String.eqb f k); auto. Qed.
Lemma CNum_inj : forall a b : list R, map CNum a = map CNum b -> a = b.
Proof. induction a as [|x a IH]; intros [|y b] H; simpl in H; try discriminate; auto. inversion H. f_equal; auto. Qed.
Lemma src_len : forall (t : table) a b ra rb, well_formed t -> src_nums t a ra -> src_nums t b rb -> length ra = length rb.
Proof.
  intros t a b ra rb [_ (n & WF)] [HA EA] [HB EB]. destruct (dget_some _ _ _ HA) as (la & LA). destruct (dget_some _ _ _ HB) as (lb & LB).
  unfold src in *. rewrite LA in EA. rewrite LB in EB. rewrite <- (map_length CNum ra), <- (map_length CNum rb), <- EA, <- EB. apply mask_len2.
  rewrite (WF _ _ (dget_In _ _ _ _ LA)), (WF _ _ (dget_In _ _ _ _ LB)). reflexivity.
Qed.
Record made (t : table) (forced : option R) (filters : option (list string)) (lc : lcdata) (periodic : bool) (ts : list R) (t0 : R)
    (base : dict R) (cs cs' : dict curve) : Prop := {
  md_class : recur_class (t_meta t) = Some periodic;
  md_times : src_nums t "time" ts;
  md_t0 : match forced with None => min_list ts = Ok t0 | Some x => t0 = x end;
  md_nodup : NoDup (dkeys cs);
  md_kept : forall f, In f (dkeys cs) <-> kept t filters f;
  md_curves : forall f c, dget f cs = Some c -> exists ms, src_nums t f ms /\ c = combine ts (map mag2flux ms) /\ length ms = length ts;
  md_basekeys : dkeys base = dkeys cs;
  md_base : forall f, In f (dkeys cs) -> exists v, dget f base = Some v /\ base_spec t f v;
  md_wrap : if periodic then wrap_curves ts cs = Ok cs' else cs' = cs;
  md_lc : exists b', make_lc (as_tabs cs') t0 periodic false (if periodic then None else Some base) = Ok (lc, b')
}.
Lemma table_inv : forall ord (t : table) forced filters lc, well_formed t -> only_permutes ord -> from_lclib_table ord t forced filters = Ok lc ->
  exists periodic ts t0 base cs cs', made t forced filters lc periodic ts t0 base cs cs' /\ dkeys cs = lib_filters ord (t_cols t) filters.
Proof.
  intros ord t forced filters lc WF HO H. unfold from_lclib_table in H. destruct (dmem "time" (t_cols t)) eqn:HT; [|discriminate]. cbn [negb] in H. cbv zeta in H.
  destruct (length (lib_filters ord (t_cols t) filters) =? 0)%nat eqn:EL; [discriminate|].
  destruct (split_types (lib_filters ord (t_cols t) filters) (t_cols t)) as [[base d]|] eqn:ES; [|discriminate]. cbn [bind] in H.
  destruct (split_inv _ _ _ _ _ WF HO HT ES) as (BK & BS & SRC). pose proof (filters_NoDup ord t filters WF HO) as ND.
  assert (COL : forall name l rs, column d name = Ok l -> col_nums l = Ok rs -> src_nums t name rs).
  { intros name l rs HC HN. unfold column in HC. rewrite <- SRC in HC. destruct (dget name (t_cols t)) as [q|] eqn:EQ; [|discriminate]. simpl in HC. inversion HC; subst l.
    split; [apply dmem_true; eapply dget_keys; congruence|]. now apply col_nums_inv. }
  destruct (column d "time") as [tc|] eqn:EC; [|discriminate]. cbn [bind] in H. destruct (col_nums tc) as [ts|] eqn:EN; [|discriminate]. cbn [bind] in H.
  destruct (match forced with None => min_list ts | Some x => Ok x end) as [t0|] eqn:E0; [|discriminate]. cbn [bind] in H.
  destruct (collect (lib_curve d) (lib_filters ord (t_cols t) filters)) as [cs|] eqn:ECS; [|discriminate]. cbn [bind] in H.
  destruct (recur_class (t_meta t)) as [periodic|] eqn:ER; [|discriminate].
  match type of H with bind ?X _ = _ => destruct X as [cs'|] eqn:EW end; [|discriminate]. cbn [bind] in H.
  match type of H with bind ?X _ = _ => destruct X as [[lc' b']|] eqn:EM end; [|discriminate]. cbn [bind fst] in H. inversion H; subst lc'.
  destruct (collect_inv _ _ _ _ ND ECS) as (CK & CG). pose proof (COL _ _ _ EC EN) as HTS.
  exists periodic, ts, t0, base, cs, cs'. split; [|exact CK]. constructor; auto.
  - destruct forced; [inversion E0; auto|auto].
  - rewrite CK; auto.
  - intros f. rewrite CK. apply filters_kept; auto.
  - intros f c HF. assert (IF : In f (lib_filters ord (t_cols t) filters)) by (rewrite <- CK; eapply dget_keys; congruence).
    destruct (CG f IF) as (c' & HC & HD). assert (c' = c) as -> by congruence. unfold lib_curve in HC. rewrite EC in HC. cbn [bind] in HC. rewrite EN in HC. cbn [bind] in HC.
    destruct (column d f) as [mc|] eqn:EMC; [|discriminate]. cbn [bind] in HC. destruct (col_nums mc) as [ms|] eqn:EMS; [|discriminate]. cbn [bind] in HC. inversion HC.
    exists ms. pose proof (COL _ _ _ EMC EMS) as HMS. split; auto. split; auto. eapply src_len; eauto.
  - congruence.
  - intros f HF. apply BS. rewrite BK, <- CK. auto.
  - destruct periodic; [auto|congruence].
  - exists b'. exact EM.
Qed.
(** Where a source row goes. *)
Lemma row_in : forall (t : table) name rs i r, src_nums t name rs -> has_row t i -> row_source t i -> num_at t name i = Some r -> nth_error rs (rank (mask_of t) i) = Some r.
Proof.
  intros t name rs i r [HM E] HR HS HN. unfold src in E. unfold num_at in HN. destruct (dget name (t_cols t)) as [l|] eqn:EL; [|discriminate].
  destruct (nth_error l i) as [c|] eqn:EN; [|discriminate]. apply source_mask in HS; auto. pose proof (mask_rank _ _ _ _ _ HS EN) as X. rewrite E, nth_error_map in X.
  destruct (nth_error rs _) as [r'|]; [|discriminate]. simpl in X. inversion X; subst c. inversion HN; subst. reflexivity.
Qed.
Lemma row_back : forall (t : table) rs j r, src_nums t "time" rs -> nth_error rs j = Some r -> exists i, has_row t i /\ row_source t i /\ num_at t "time" i = Some r /\ rank (mask_of t) i = j.
Proof.
  intros t rs j r [HM E] HN. unfold src in E. destruct (dget "time" (t_cols t)) as [l|] eqn:EL; [|destruct rs; destruct j; discriminate].
  assert (X : nth_error (mask_list (mask_of t) l) j = Some (CNum r)) by (rewrite E; rewrite nth_error_map, HN; reflexivity).
  destruct (mask_back _ _ _ _ _ X) as (i & I1 & I2 & I3). exists i.
  assert (HR : has_row t i) by (exists l; split; auto; apply nth_error_Some; congruence).
  split; auto. split; [apply source_mask; auto|]. split; auto. unfold num_at. now rewrite EL, I2.
Qed.
Lemma nth_combine : forall A B (a : list A) (b : list B) i x y, nth_error a i = Some x -> nth_error b i = Some y -> nth_error (combine a b) i = Some (x, y).
Proof. intros A B a. induction a as [|x0 a IH]; intros [|y0 b] [|i] x y HA HB; simpl in *; try discriminate; [congruence|auto]. Qed.
Lemma xs_combine : forall a b, length a = length b -> xs (combine a b) = a.
Proof. unfold xs. induction a as [|x a IH]; intros [|y b] E; simpl in *; try discriminate; auto. f_equal. apply IH. lia. Qed.

(** ** Theorems: light curves that do not repeat *)
Definition has_time (t : table) (i : nat) (x : R) : Prop := row_source t i /\ num_at t "time" i = Some x.
Lemma timed_row : forall t i x, num_at t "time" i = Some x -> has_row t i.
Proof.
  intros t i x H. unfold num_at in H. destruct (dget "time" (t_cols t)) as [l|] eqn:EL; [|discriminate]. exists l. split; auto.
  apply nth_error_Some. destruct (nth_error l i); [discriminate|discriminate].
Qed.
Lemma not_periodic_class : forall (t : table) p, recur_class (t_meta t) = Some p -> (p = true <-> is_periodic t).
Proof.
  intros t p H. unfold is_periodic, class_of. unfold recur_class in H. destruct (dget "RECUR_CLASS" (t_meta t)) as [[s|q]|] eqn:E; try discriminate.
  - destruct (_ || _)%bool eqn:EO.
    + apply orb_true_iff in EO. rewrite !String.eqb_eq in EO. split; [intros _|intros _; congruence]. destruct EO as [-> | ->]; auto.
    + apply orb_false_iff in EO. rewrite !String.eqb_neq in EO. split; [|intros [X|X]; inversion X; tauto].
      intros ->. destruct (String.eqb s "RECUR-NONPERIODIC"); [discriminate|]. destruct (String.eqb s "NON-RECUR"); [discriminate|]. destruct (String.eqb s ""); discriminate.
  - split; [congruence|]. intros [X|X]; discriminate.
Qed.
Ltac open_table H WF HO := destruct (table_inv _ _ _ _ _ WF HO H) as (periodic & ts0 & t0 & base & cs & cs' & M & FK).
(** At the time of a source row, counted from the reference epoch, the light curve of a filter is the flux of the
    magnitude in that row. *)
Theorem C100_at_rows : forall ord (t : table) forced filters lc f i x m ts j out, well_formed t -> only_permutes ord ->
  from_lclib_table ord t forced filters = Ok lc -> ~ is_periodic t -> kept t filters f -> row_source t i ->
  num_at t "time" i = Some x -> num_at t f i = Some m -> nth_error ts j = Some (x - lc_t0 lc) -> lc_evaluate lc ts f = Ok out ->
  nth_error out j = Some (mag2flux m).
Proof.
  intros ord t forced filters lc f i x m ts j out WF HO H NP HK HS HX HM HJ HE. open_table H WF HO.
  pose proof (not_periodic_class _ _ (md_class _ _ _ _ _ _ _ _ _ _ M)) as PC. destruct periodic; [tauto|]. pose proof (md_wrap _ _ _ _ _ _ _ _ _ _ M) as MW. simpl in MW. subst cs'.
  destruct (md_lc _ _ _ _ _ _ _ _ _ _ M) as (b' & ML). apply (md_kept _ _ _ _ _ _ _ _ _ _ M) in HK.
  destruct (dget f cs) as [c|] eqn:EC; [|exfalso; apply dget_keys in HK; congruence]. destruct (md_curves _ _ _ _ _ _ _ _ _ _ M _ _ EC) as (ms & SM & -> & LEN).
  pose proof (timed_row _ _ _ HX) as HR.
  assert (T0 : lc_t0 lc = t0). { destruct (C48_reference _ _ _ _ _ _ _ ML) as [|(X & _)]; [auto|discriminate]. }
  rewrite T0 in HJ. change (mag2flux m) with (as_flux false (mag2flux m)).
  eapply C48_at_data with (t := x) (c := combine ts0 (map mag2flux ms)); eauto; [rewrite as_tabs_data; auto|].
  eapply nth_error_In. apply nth_combine; [eapply row_in; eauto; apply M|]. rewrite nth_error_map. erewrite row_in; eauto. reflexivity.
Qed.
(** Between two successive source rows it is the straight line between their fluxes. *)
Theorem C100_between_rows : forall ord (t : table) forced filters lc f i k x1 m1 x2 m2 q ts j out, well_formed t -> only_permutes ord ->
  from_lclib_table ord t forced filters = Ok lc -> ~ is_periodic t -> kept t filters f ->
  row_source t i -> row_source t k -> (i < k)%nat -> (forall l, (i < l < k)%nat -> ~ row_source t l) ->
  num_at t "time" i = Some x1 -> num_at t f i = Some m1 -> num_at t "time" k = Some x2 -> num_at t f k = Some m2 ->
  x1 - lc_t0 lc <= q <= x2 - lc_t0 lc -> nth_error ts j = Some q -> lc_evaluate lc ts f = Ok out ->
  nth_error out j = Some (mag2flux m1 + (mag2flux m2 - mag2flux m1) * ((q - (x1 - lc_t0 lc)) / (x2 - x1))).
Proof.
  intros ord t forced filters lc f i k x1 m1 x2 m2 q ts j out WF HO H NP HK S1 S2 LT NB X1 M1 X2 M2 HQ HJ HE. open_table H WF HO.
  pose proof (not_periodic_class _ _ (md_class _ _ _ _ _ _ _ _ _ _ M)) as PC. destruct periodic; [tauto|]. pose proof (md_wrap _ _ _ _ _ _ _ _ _ _ M) as MW. simpl in MW. subst cs'.
  destruct (md_lc _ _ _ _ _ _ _ _ _ _ M) as (b' & ML). apply (md_kept _ _ _ _ _ _ _ _ _ _ M) in HK.
  destruct (dget f cs) as [c|] eqn:EC; [|exfalso; apply dget_keys in HK; congruence]. destruct (md_curves _ _ _ _ _ _ _ _ _ _ M _ _ EC) as (ms & SM & -> & LEN).
  assert (T0 : lc_t0 lc = t0). { destruct (C48_reference _ _ _ _ _ _ _ ML) as [|(X & _)]; [auto|discriminate]. }
  rewrite T0 in *. pose proof (timed_row _ _ _ X1) as R1. pose proof (timed_row _ _ _ X2) as R2.
  assert (PT : forall i x m, row_source t i -> num_at t "time" i = Some x -> num_at t f i = Some m -> nth_error (combine ts0 (map mag2flux ms)) (rank (mask_of t) i) = Some (x, mag2flux m)).
  { intros i0 x m HS HX HM. apply nth_combine; [eapply row_in; eauto; [apply M|eapply timed_row; eauto]|]. rewrite nth_error_map. erewrite row_in; eauto; [reflexivity|eapply timed_row; eauto]. }
  assert (RK : rank (mask_of t) k = S (rank (mask_of t) i)).
  { apply rank_next; auto; [apply source_mask; auto|]. intros l Hl. apply not_source_mask; auto.
    destruct R2 as (lt & EL & L2). exists lt. split; auto. lia. }
  pose proof (PT _ _ _ S1 X1 M1) as P1. pose proof (PT _ _ _ S2 X2 M2) as P2. rewrite RK in P2.
  destruct (C48_between _ _ _ _ _ _ f _ _ x1 (mag2flux m1) x2 (mag2flux m2) q ts j out ML ltac:(rewrite as_tabs_data; eauto) P1 P2 HQ HJ HE) as (v & E & EV & _).
  unfold as_flux in EV. congruence.
Qed.
(** Before the first and after the last source row it is the flux of the first template row, zero if the table has none. *)
Theorem C100_outside_rows : forall ord (t : table) forced filters lc f q ts j out, well_formed t -> only_permutes ord ->
  from_lclib_table ord t forced filters = Ok lc -> ~ is_periodic t -> kept t filters f ->
  (forall i x, has_time t i x -> q < x - lc_t0 lc) \/ (forall i x, has_time t i x -> x - lc_t0 lc < q) ->
  nth_error ts j = Some q -> lc_evaluate lc ts f = Ok out ->
  exists v, nth_error out j = Some v /\
   ((exists i m, has_row t i /\ ~ row_source t i /\ (forall k, (k < i)%nat -> row_source t k) /\ num_at t f i = Some m /\ v = mag2flux m) \/
    ((forall i, has_row t i -> row_source t i) /\ v = 0)).
Proof.
  intros ord t forced filters lc f q ts j out WF HO H NP HK HQ HJ HE. open_table H WF HO.
  pose proof (not_periodic_class _ _ (md_class _ _ _ _ _ _ _ _ _ _ M)) as PC. destruct periodic; [tauto|]. pose proof (md_wrap _ _ _ _ _ _ _ _ _ _ M) as MW. simpl in MW. subst cs'.
  destruct (md_lc _ _ _ _ _ _ _ _ _ _ M) as (b' & ML). apply (md_kept _ _ _ _ _ _ _ _ _ _ M) in HK. destruct (md_base _ _ _ _ _ _ _ _ _ _ M f HK) as (v & HV & BS).
  destruct (dget f cs) as [c|] eqn:EC; [|exfalso; apply dget_keys in HK; congruence]. destruct (md_curves _ _ _ _ _ _ _ _ _ _ M _ _ EC) as (ms & SM & -> & LEN).
  assert (T0 : lc_t0 lc = t0). { destruct (C48_reference _ _ _ _ _ _ _ ML) as [|(X & _)]; [auto|discriminate]. }
  rewrite T0 in *. exists v. split; [|exact BS]. change v with (as_flux false v).
  assert (PB : forall p, In p (combine ts0 (map mag2flux ms)) -> exists i, has_time t i (fst p)).
  { intros [a b] HI. apply in_combine_l in HI. apply In_nth_error in HI. destruct HI as (n & Hn). destruct (row_back _ _ _ _ (md_times _ _ _ _ _ _ _ _ _ _ M) Hn) as (i & _ & HS & HX & _).
    exists i. split; auto. }
  eapply C48_outside with (c := combine ts0 (map mag2flux ms)); eauto; [rewrite as_tabs_data; eauto|].
  destruct HQ as [HQ|HQ]; [left|right]; intros p Hp; destruct (PB p Hp) as (i & HT); apply (HQ i _ HT).
Qed.
