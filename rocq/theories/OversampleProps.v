(** C75: oversampling an OpSim table. *)
From Coq Require Import Reals String List Bool Arith Lia Lra.
From Verif Require Import Base BaseFacts RealBase ObsTableModel ObsTableProps ObsTableMore NoiseModel NoiseProps FakeModel FakeProps SurveyModel SurveyProps RomanModel RomanProps OversampleModel.
From Verif Require Import GraphStateMore.
From Verif Require SedModel SedProps SedBands SimulateModel SimulateMore.
Import ListNotations.
Open Scope R_scope.

(** ** Specification *)
(** The rows that see the pointing. *)
Definition sees (o : obstable) (ra dec radius : R) (i : nat) : Prop := matches o ra dec radius None None i.
Definition sees_in (o : obstable) (ra dec radius : R) (band : string) (i : nat) : Prop := sees o ra dec radius i /\ cell_at o "filter" i = Some (CStr band).
(** Start and end of the time range. *)
Definition starts (o : obstable) (ra dec radius : R) (given : option R) (a : R) : Prop :=
  match given with
  | Some t => a = t
  | None => (exists i, sees o ra dec radius i /\ num_at o "time" i = Some a) /\ forall i t, sees o ra dec radius i -> num_at o "time" i = Some t -> a <= t
  end.
Definition ends (o : obstable) (ra dec radius : R) (given : option R) (b : R) : Prop :=
  match given with
  | Some t => b = t
  | None => (exists i, sees o ra dec radius i /\ num_at o "time" i = Some b) /\ forall i t, sees o ra dec radius i -> num_at o "time" i = Some t -> t <= b
  end.
(** The bands in order. *)
Definition bands_used (o : obstable) (ra dec radius : R) (given : option (list string)) (bs : list string) : Prop :=
  match given with
  | Some l => bs = l /\ forall s, In s l -> exists i, sees_in o ra dec radius s i
  | None => SedBands.sorted_names bs /\ forall s, In s bs <-> exists i, sees_in o ra dec radius s i
  end.
(** The greatest identifier in use. *)
Definition last_id (o : obstable) (m : R) : Prop :=
  (exists i, cell_at o "observationId" i = Some (CNum m)) /\ forall i x, cell_at o "observationId" i = Some (CNum x) -> x <= m.
(** No column still carries a name of the survey's own that the column map would change. *)
Definition settled (cm : dict string) (o : obstable) : Prop := forall k v, In (k, v) cm -> In v (columns (ob_frame o)) -> k = v.

(** ** Parts *)
Lemma tile_length : forall A (l : list A) k, length (tile l k) = (k * length l)%nat.
Proof. intros A l k. unfold tile. induction k; simpl; auto. rewrite app_length, IHk. lia. Qed.
Lemma tile_nth : forall A (l : list A) k i, (i < k * length l)%nat -> nth_error (tile l k) i = nth_error l (i mod length l).
Proof.
  intros A l k. unfold tile. induction k as [|k IH]; intros i H; [simpl in H; lia|]. cbn [repeat concat]. destruct (le_lt_dec (length l) i) as [G|G].
  - rewrite nth_error_app2 by auto. rewrite IH by (simpl in H; lia). f_equal. assert (length l <> 0)%nat by (intros E; rewrite E in *; lia).
    replace i with (i - length l + 1 * length l)%nat at 2 by lia. rewrite Nat.mod_add; auto.
  - rewrite nth_error_app1 by auto. now rewrite Nat.mod_small.
Qed.
Lemma tile_In : forall A (l : list A) k x, In x (tile l k) -> In x l.
Proof. intros A l k x. unfold tile. induction k; simpl; [intros []|]. intros I. apply in_app_or in I. tauto. Qed.
Lemma best_spec : forall c rows,
  match best c rows with
  | Some (i, x) => In i rows /\ nth i c CNan = CNum x /\ forall j y, In j rows -> nth j c CNan = CNum y -> y <= x
  | None => forall j y, In j rows -> nth j c CNan <> CNum y
  end.
Proof.
  intros c. induction rows as [|i rows IH]; cbn [best]; [intros j y []|]. destruct (nth i c CNan) as [x|s|] eqn:E; cbn [num_opt].
  - destruct (best c rows) as [[j y]|].
    + destruct IH as (A & B & C). destruct (Rltb x y) eqn:L.
      * apply Rltb_true in L. split; [simpl; auto|]. split; auto. intros j' y' [<-|I] H; [rewrite E in H; injection H as <-; lra|eauto].
      * apply Rltb_false in L. split; [simpl; auto|]. split; auto. intros j' y' [<-|I] H; [rewrite E in H; injection H as <-; lra|]. specialize (C j' y' I H). lra.
    + split; [simpl; auto|]. split; auto. intros j' y' [<-|I] H; [rewrite E in H; injection H as <-; lra|]. exfalso. exact (IH j' y' I H).
  - destruct (best c rows) as [[j y]|].
    + destruct IH as (A & B & C). split; [simpl; auto|]. split; auto. intros j' y' [<-|I] H; [congruence|eauto].
    + intros j' y' [<-|I]; [congruence|auto].
  - destruct (best c rows) as [[j y]|].
    + destruct IH as (A & B & C). split; [simpl; auto|]. split; auto. intros j' y' [<-|I] H; [congruence|eauto].
    + intros j' y' [<-|I]; [congruence|auto].
Qed.
Definition filled (names : list string) (P : string -> nat -> Prop) (band : string) (l l' : list (option nat)) : Prop :=
  length l' = length l /\ forall i s, nth_error names i = Some s -> (s = band -> exists q, nth_error l' i = Some (Some q) /\ P band q) /\ (s <> band -> nth_error l' i = nth_error l i).
Lemma copy_filled : forall (P : string -> nat -> Prop) band p names j l, (forall j, P band (p j)) -> length l = length names -> filled names P band l (copy_rows band names p j l).
Proof.
  intros P band p names. induction names as [|s names IH]; intros j l HP HL.
  - split; auto. intros i s H. destruct i; discriminate.
  - destruct l as [|x l]; [discriminate|]. injection HL as HL. cbn [copy_rows]. destruct (String.eqb s band) eqn:E.
    + destruct (IH (S j) l HP HL) as [L F]. split; [simpl; congruence|]. intros [|i] s' H; simpl in *; [|auto]. injection H as <-. apply String.eqb_eq in E. split; [intros _; eauto|contradiction].
    + destruct (IH j l HP HL) as [L F]. split; [simpl; congruence|]. intros [|i] s' H; simpl in *; [|auto]. injection H as <-. apply String.eqb_neq in E. split; [contradiction|auto].
Qed.
Lemma fold_filled : forall B (name : B -> string) (P : string -> nat -> Prop) step names bands l l',
  (forall l b l', length l = length names -> step l b = Ok l' -> filled names P (name b) l l') -> length l = length names ->
  fold_res step l bands = Ok l' -> length l' = length names /\ forall i s, nth_error names i = Some s ->
    (In s (map name bands) -> exists q, nth_error l' i = Some (Some q) /\ P s q) /\ (~ In s (map name bands) -> nth_error l' i = nth_error l i).
Proof.
  intros B name P step names. induction bands as [|b bands IH]; intros l l' HS HL H.
  - injection H as <-. split; auto. intros i s _. simpl. split; [intros []|auto].
  - cbn [fold_res] in H. destruct (step l b) as [l1|] eqn:E; [|discriminate]. destruct (HS _ _ _ HL E) as [L1 F1]. destruct (IH l1 l' HS ltac:(congruence) H) as [L2 F2]. split; auto.
    intros i s Hs. destruct (F1 i s Hs) as [A1 A2]. destruct (F2 i s Hs) as [B1 B2]. simpl. split.
    + intros HI. destruct (in_dec string_dec s (map name bands)) as [I|I]; [auto|]. destruct HI as [HE|HI]; [|contradiction]. symmetry in HE. destruct (A1 HE) as (q & Q1 & Q2). exists q. rewrite (B2 I). subst s. auto.
    + intros HN. rewrite B2, A2; auto.
Qed.
(** The row a new observation is copied from. *)
Definition proto (f : frame) (rows : list nat) (dark : bool) (s : string) (q : nat) : Prop :=
  In q rows /\ in_band f s q = true /\
  (dark = true -> exists c x, dget "skybrightness" (f_cols f) = Some c /\ nth q c CNan = CNum x /\ forall j y, In j rows -> in_band f s j = true -> nth j c CNan = CNum y -> y <= x).
Lemma prototypes_spec : forall pick f rows names bands strategy p, (forall s, In s names -> In s bands) -> prototypes pick f rows names bands strategy = Ok p ->
  length p = length names /\ forall i s, nth_error names i = Some s -> exists q, nth_error p i = Some (Some q) /\ proto f rows (String.eqb strategy "darkest_sky") s q.
Proof.
  intros pick f rows names bands strategy p HN H. unfold prototypes in H. cbv zeta in H. destruct (String.eqb strategy "darkest_sky").
  - assert (ST : forall l b l', length l = length names -> darkest f rows names l b = Ok l' -> filled names (proto f rows true) b l l').
    { intros l b l' HL HS. unfold darkest in HS. destruct (dget "skybrightness" (f_cols f)) as [c|] eqn:EC; [|discriminate]. pose proof (best_spec c (filter (in_band f b) rows)) as BS.
      destruct (best c _) as [[i x]|]; [|discriminate]. injection HS as <-. destruct BS as (A & B & C). apply filter_In in A. apply copy_filled; auto. intros _. split; [tauto|]. split; [tauto|].
      intros _. exists c, x. split; auto. split; auto. intros j y I1 I2 I3. apply (C j y); auto. now apply filter_In. }
    destruct (fold_filled _ (fun b => b) (proto f rows true) _ _ _ _ _ ST ltac:(now rewrite map_length) H) as [L F].
    split; auto. intros i s Hs. apply (F i s Hs). rewrite map_id. apply HN. now apply nth_error_In in Hs.
  - destruct (String.eqb strategy "random"); [|discriminate].
    assert (ST : forall l b l', length l = length names -> sampled pick f rows names l b = Ok l' -> filled names (proto f rows false) (snd b) l l').
    { intros l b l' HL HS. unfold sampled in HS. cbv zeta in HS. destruct (filter (in_band f (snd b)) rows) as [|i0 own] eqn:EO; [discriminate|]. injection HS as <-. apply copy_filled; auto. intros j.
      assert (I : In (nth (pick (fst b) j (length (i0 :: own)) mod length (i0 :: own))%nat (i0 :: own) i0) (filter (in_band f (snd b)) rows)).
      { rewrite EO. apply nth_In. apply Nat.mod_upper_bound. discriminate. }
      apply filter_In in I. split; [tauto|]. split; [tauto|]. discriminate. }
    destruct (fold_filled _ (fun kb : nat * string => snd kb) (proto f rows false) _ _ _ _ _ ST ltac:(now rewrite map_length) H) as [L F].
    split; auto. intros i s Hs. apply (F i s Hs). assert (E : map (fun kb : nat * string => snd kb) (combine (seq 0 (length bands)) bands) = bands).
    { clear. generalize 0%nat. induction bands as [|x l IH]; intros k; simpl; auto. f_equal. apply IH. }
    rewrite E. apply HN. now apply nth_error_In in Hs.
Qed.
Lemma remap_settled : forall cm f, (forall k v, In (k, v) cm -> In v (columns f) -> k = v) -> exists inv, remap (Some cm) f = Ok (f, inv).
Proof.
  intros cm f H. unfold remap. cbv zeta.
  assert (X : forall cm' nm inv, (forall k v, In (k, v) cm' -> In v (columns f) -> k = v) -> (forall c, dmem c nm = true -> In c (columns f)) -> (forall c, In c (columns f) -> dget c nm = Some c) ->
    exists nm' inv', fold_res (remap_step (columns f)) (nm, inv) cm' = Ok (nm', inv') /\ forall c, In c (columns f) -> dget c nm' = Some c).
  { induction cm' as [|[k v] cm' IH]; intros nm inv HK HM HD; [exists nm, inv; auto|]. cbn [fold_res remap_step]. destruct (dmem v nm) eqn:E.
    - assert (k = v) by (apply HK; simpl; auto). subst k. rewrite String.eqb_refl, andb_false_r. apply IH.
      + intros; apply HK; simpl; auto.
      + intros c Hc. rewrite dmem_dset in Hc. destruct (String.eqb c v) eqn:EV; [apply String.eqb_eq in EV; subst; auto|auto].
      + intros c Hc. destruct (string_dec c v) as [->|NE]; [apply dget_dset_same|rewrite dget_dset_other; auto].
    - apply IH; auto. intros; apply HK; simpl; auto. }
  destruct (X cm (map (fun c => (c, c)) (columns f)) [] H) as (nm' & inv' & E & D).
  - intros c Hc. apply dmem_true in Hc. unfold dkeys in Hc. rewrite map_map in Hc. simpl in Hc. now rewrite map_id in Hc.
  - intros c Hc. clear -Hc. unfold columns in *. induction (dkeys (f_cols f)) as [|x l IH]; [contradiction|]. simpl. destruct (String.eqb c x) eqn:E; [apply String.eqb_eq in E; congruence|].
    apply IH. destruct Hc as [->|]; auto. rewrite String.eqb_refl in E. discriminate.
  - match goal with |- context [bind ?X _] => replace X with (Ok (nm', inv') : result (dict string * dict string)) by (symmetry; exact E) end. cbn [bind fst snd]. exists inv'. do 2 f_equal. destruct f as [lb cols]. cbn [f_labels f_cols]. f_equal. unfold rename_cols. clear -D. unfold columns in D. cbn [f_cols] in D.
    assert (Y : forall d, (forall c, In c (dkeys d) -> dget c nm' = Some c) -> map (fun cv : string * list cell => (match dget (fst cv) nm' with Some k => k | None => fst cv end, snd cv)) d = d).
    { induction d as [|[k v] d IH]; intros HD; simpl; auto. rewrite (HD k) by (simpl; auto). f_equal. apply IH. intros; apply HD; simpl; auto. }
    now apply Y.
Qed.

(** What a successful call did. *)
Record oversampled (ball : list vec3 -> vec3 -> R -> list nat) (o : obstable) (cm : dict string) (ra dec radius dt : R) (t0 t1 : option R) (bands : option (list string)) (dark : bool)
  (o' : obstable) (rows : list nat) (a b : R) (bs : list string) (last : R) (p : list (option nat)) (n : nat) : Prop := {
  ov_rows : NoDup rows /\ rows <> [] /\ forall i, In i rows <-> sees o ra dec radius i;
  ov_start : starts o ra dec radius t0 a; ov_end : ends o ra dec radius t1 b; ov_range : a < b;
  ov_bands : bands_used o ra dec radius bands bs; ov_some : bs <> [];
  ov_n : n = length (SimulateModel.arange a b dt);
  ov_k : (length bs <= n)%nat /\ (n / length bs * length bs = n)%nat;
  ov_last : last_id o last;
  ov_names : forall s, In s bs -> exists i, In i rows /\ in_band (ob_frame o) s i = true;
  ov_length : length p = n;
  ov_proto : forall i s, nth_error bs (i mod length bs) = Some s -> (i < n)%nat -> exists q, nth_error p i = Some (Some q) /\ proto (ob_frame o) rows dark s q;
  ov_make : opsim_make (mkFrame (seq 0 n)
        ([("observationId", map (fun i => CNum (last + 1 + INR i)) (seq 0 n)); ("time", map CNum (SimulateModel.arange a b dt)); ("ra", repeat (CNum ra) n); ("dec", repeat (CNum dec) n);
          ("filter", map CStr (tile bs (n / length bs)))]%string ++ other_cols (ob_frame o) p)) (Some cm) [] (ob_values o) None = Ok o'
}.
Lemma cells_of_spec : forall o name rows c, tinv o -> (forall i, In i rows -> (i < nrows (ob_frame o))%nat) -> cells_of (ob_frame o) name rows = Ok c ->
  In name (columns (ob_frame o)) /\ length c = length rows /\ forall k i, nth_error rows k = Some i -> exists x, nth_error c k = Some x /\ cell_at o name i = Some x.
Proof.
  intros o name rows c T HR H. unfold cells_of in H. destruct (dget name (f_cols (ob_frame o))) as [col|] eqn:E; [|discriminate]. injection H as <-.
  split; [apply dget_keys; congruence|]. split; [apply map_length|]. intros k i Hk. exists (nth i col CNan). rewrite nth_error_map, Hk. split; auto. unfold cell_at. rewrite E. apply nth_error_nth'.
  destruct (ti_frame _ T) as [_ FF]. rewrite Forall_forall in FF. pose proof (FF _ (dget_In _ _ _ _ E)) as L. cbn [snd] in L. rewrite L. apply HR. now apply nth_error_In in Hk.
Qed.
Lemma in_band_spec : forall o s i, in_band (ob_frame o) s i = true <-> cell_at o "filter" i = Some (CStr s).
Proof.
  intros o s i. unfold in_band, cell_at. destruct (dget "filter" (f_cols (ob_frame o))) as [c|]; [|split; discriminate]. rewrite text_is_spec. split; intros H.
  - destruct (nth_error c i) as [x|] eqn:E; [f_equal; now rewrite (nth_error_nth _ _ CNan E) in H|]. apply nth_error_None in E. rewrite nth_overflow in H by auto. discriminate.
  - now rewrite (nth_error_nth _ _ CNan H).
Qed.
Lemma oversample_inv : forall ball pick o cm ra dec radius dt t0 t1 bands strategy o', ball_spec ball -> tinv o -> 0 <= radius <= 180 ->
  oversample ball pick o cm ra dec radius dt t0 t1 bands strategy = Ok o' ->
  exists rows a b bs last p n, oversampled ball o cm ra dec radius dt t0 t1 bands (String.eqb strategy "darkest_sky") o' rows a b bs last p n.
Proof.
  intros ball pick o cm ra dec radius dt t0 t1 bands strategy o' HB T HR H. unfold oversample in H. cbv zeta in H.
  destruct (range_search ball o _ _ _ _ _) as [res|] eqn:ES; [|discriminate]. cbn [bind] in H.
  destruct (exact_scalar_inv _ _ _ _ _ _ _ _ _ HB T (eq_refl : radius_of o (Some radius) = Some radius) HR ES) as (rows & -> & ND & SP). cbn [bound_of] in SP. fold (sees o ra dec radius) in SP.
  destruct (length rows =? 0)%nat eqn:E0; [discriminate|]. apply Nat.eqb_neq in E0.
  assert (IR : forall i, In i rows -> (i < nrows (ob_frame o))%nat). { intros i Hi. apply SP in Hi. destruct Hi as (x & y & z & A & _). now apply (num_at_lt _ _ _ _ T A). }
  destruct (cells_of _ "time" rows) as [tc|] eqn:ET; [|discriminate]. cbn [bind] in H. destruct (cells_of_spec _ _ _ _ T IR ET) as (_ & LT & CT).
  assert (NT : forall t, In t (map num_of tc) <-> exists i, sees o ra dec radius i /\ num_at o "time" i = Some t).
  { intros t. split.
    - intros I. apply in_map_iff in I. destruct I as (x & <- & I). apply In_nth_error in I. destruct I as (k & Hk). assert (LK : (k < length rows)%nat) by (rewrite <- LT; apply nth_error_Some; congruence).
      destruct (nth_error rows k) as [i|] eqn:EI; [|apply nth_error_None in EI; lia]. exists i. split; [apply SP; now apply nth_error_In in EI|]. destruct (CT k i EI) as (x' & E1 & E2). unfold num_at. rewrite E2. simpl. congruence.
    - intros (i & S & E). apply SP in S. apply In_nth_error in S. destruct S as (k & Hk). destruct (CT k i Hk) as (x & E1 & E2). unfold num_at in E. rewrite E2 in E. simpl in E. injection E as <-. apply in_map. now apply nth_error_In in E1. }
  destruct (match t0 with Some t => Ok t | None => _ end) as [a|] eqn:EA; [|discriminate]. cbn [bind] in H.
  assert (HA : starts o ra dec radius t0 a).
  { destruct t0 as [t|]; simpl; [congruence|]. apply SedProps.list_min_spec in EA. destruct EA as [A1 A2]. split; [now apply NT|]. intros i t S E. apply A2, NT. eauto. }
  destruct (match t1 with Some t => Ok t | None => _ end) as [b|] eqn:EB; [|discriminate]. cbn [bind] in H.
  assert (HBB : ends o ra dec radius t1 b).
  { destruct t1 as [t|]; simpl; [congruence|]. apply SedProps.list_max_spec in EB. destruct EB as [A1 A2]. split; [now apply NT|]. intros i t S E. apply A2, NT. eauto. }
  destruct (Rleb b a) eqn:EAB; [discriminate|]. apply Rleb_false in EAB.
  destruct (cells_of _ "filter" rows) as [fc|] eqn:EF; [|discriminate]. cbn [bind] in H. destruct (cells_of_spec _ _ _ _ T IR EF) as (_ & LF & CF).
  destruct (texts fc) as [nm|] eqn:EX; [|discriminate]. cbn [bind] in H. destruct (texts_spec _ _ EX) as (ss & -> & SN).
  assert (NF : forall s, In s (SedModel.unique_names nm) <-> exists i, sees_in o ra dec radius s i).
  { intros s. rewrite SedBands.unique_names_In, SN. split.
    - intros I. apply In_nth_error in I. destruct I as (k & Hk). assert (LK : (k < length rows)%nat) by (rewrite <- LF, map_length; apply nth_error_Some; congruence).
      destruct (nth_error rows k) as [i|] eqn:EI; [|apply nth_error_None in EI; lia]. exists i. split; [apply SP; now apply nth_error_In in EI|]. destruct (CF k i EI) as (x' & E1 & E2). rewrite nth_error_map, Hk in E1. simpl in E1. congruence.
    - intros (i & S & E). apply SP in S. apply In_nth_error in S. destruct S as (k & Hk). destruct (CF k i Hk) as (x & E1 & E2). rewrite nth_error_map in E1. destruct (nth_error ss k) as [s'|] eqn:ESK; [|discriminate]. simpl in E1.
      apply nth_error_In with k. congruence. }
  destruct (match bands with None => _ | Some _ => _ end) as [bs|] eqn:EBS; [|discriminate]. cbn [bind] in H.
  assert (HBS : bands_used o ra dec radius bands bs /\ forall s, In s bs -> exists i, sees_in o ra dec radius s i).
  { destruct bands as [l|]; simpl.
    - destruct (forallb _ l) eqn:EL; [|discriminate]. injection EBS as <-. rewrite forallb_forall in EL. assert (Y : forall s, In s l -> exists i, sees_in o ra dec radius s i) by (intros s Hs; apply NF, smem_In, EL, Hs). auto.
    - injection EBS as <-. split; [split; [apply SedBands.unique_names_sorted|exact NF]|intros s; apply NF]. }
  destruct HBS as [HBS HNB].
  destruct (Reqb dt 0); [discriminate|]. set (n := length (SimulateModel.arange a b dt)) in *. destruct (n <? length bs)%nat eqn:ENB; [discriminate|]. apply Nat.ltb_ge in ENB.
  destruct (match dget "observationId" (f_cols (ob_frame o)) with Some _ => _ | None => _ end) as [ids|] eqn:EI; [|discriminate]. cbn [bind] in H.
  destruct (SedModel.list_max ids) as [last|] eqn:EL; [|discriminate]. cbn [bind] in H. destruct (dget "observationId" (f_cols (ob_frame o))) as [ic|] eqn:EIC; [|discriminate].
  destruct (numbers_spec _ _ EI) as (_ & rs & -> & SI). apply SedProps.list_max_spec in EL. destruct EL as [L1 L2].
  destruct (length bs =? 0)%nat eqn:EZ; [discriminate|]. apply Nat.eqb_neq in EZ. destruct (length (tile bs (n / length bs)) =? n)%nat eqn:EN; [|discriminate]. cbn [negb] in H. apply Nat.eqb_eq in EN. pose proof EN as ENL. rewrite tile_length in EN.
  destruct (prototypes _ _ _ _ _ _) as [p|] eqn:EP; [|discriminate]. cbn [bind] in H. destruct (prototypes_spec _ _ _ _ _ _ _ ltac:(intros s; apply tile_In) EP) as [LP PP].
  exists rows, a, b, bs, last, p, n. split; auto.
  - split; auto. split; [intros ->; now apply E0|]. intros i. symmetry. apply iff_sym, SP.
  - intros ->. now apply EZ.
  - split; [|].
    + apply SI in L1. apply In_nth_error in L1. destruct L1 as (i & Hi). exists i. unfold cell_at. rewrite EIC, nth_error_map, Hi. reflexivity.
    + intros i x E. apply L2, SI. unfold cell_at in E. rewrite EIC, nth_error_map in E. destruct (nth_error rs i) as [y|] eqn:EY; [|discriminate]. injection E as <-. now apply nth_error_In in EY.
  - intros s Hs. destruct (HNB s Hs) as (i & S1 & S2). exists i. split; [now apply SP|]. now apply in_band_spec.
  - congruence.
  - intros i s Hs Hi. apply PP. rewrite tile_nth; auto. lia.
Qed.

Lemma other_keys : forall f p, dkeys (other_cols f p) = filter (fun c => negb (smem c own_names)) (columns f).
Proof.
  intros f p. unfold other_cols, columns, dkeys. rewrite map_map. cbn [fst]. induction (f_cols f) as [|[k v] d IH]; cbn [filter map fst]; auto.
  destruct (negb (smem k own_names)); cbn [map fst]; now rewrite IH.
Qed.
Lemma other_get : forall f p c, ~ In c own_names -> dget c (other_cols f p) = option_map (fun col => copied col p) (dget c (f_cols f)).
Proof.
  intros f p c Hc. unfold other_cols. induction (f_cols f) as [|[k v] d IH]; cbn [filter map fst]; auto. destruct (String.eqb c k) eqn:E.
  - apply String.eqb_eq in E. subst k. replace (smem c own_names) with false by (symmetry; now apply smem_false). cbn [negb map fst snd dget]. now rewrite String.eqb_refl.
  - destruct (negb (smem k own_names)); cbn [map fst snd dget]; now rewrite ?E.
Qed.
Record new_table (o : obstable) (ra dec a b dt : R) (bs : list string) (last : R) (p : list (option nat)) (n : nat) (o' : obstable) : Prop := {
  nt_inv : tinv o'; nt_values : ob_values o' = survey_values opsim_defaults [] (ob_values o); nt_fp : ob_footprint o' = None; nt_rows : nrows (ob_frame o') = n;
  nt_cols : forall c, In c (columns (ob_frame o')) <-> In c (columns (ob_frame o));
  nt_id : forall i, (i < n)%nat -> cell_at o' "observationId" i = Some (CNum (last + 1 + INR i));
  nt_time : forall i, cell_at o' "time" i = option_map CNum (nth_error (SimulateModel.arange a b dt) i);
  nt_ra : forall i, (i < n)%nat -> cell_at o' "ra" i = Some (CNum ra); nt_dec : forall i, (i < n)%nat -> cell_at o' "dec" i = Some (CNum dec);
  nt_filter : forall i, (i < n)%nat -> cell_at o' "filter" i = option_map CStr (nth_error bs (i mod length bs));
  nt_other : forall c i q, ~ In c own_names -> nth_error p i = Some (Some q) -> (q < nrows (ob_frame o))%nat -> cell_at o' c i = cell_at o c q
}.
Lemma nth_error_seq : forall n i, (i < n)%nat -> nth_error (seq 0 n) i = Some i.
Proof. intros n i H. rewrite (nth_error_nth' _ 0%nat) by now rewrite seq_length. now rewrite seq_nth. Qed.
Lemma nth_error_rep : forall A (x : A) n i, (i < n)%nat -> nth_error (repeat x n) i = Some x.
Proof. intros A x n. induction n; intros i H; [lia|]. destruct i; simpl; auto. apply IHn. lia. Qed.
Lemma made_new : forall ball o cm ra dec radius dt t0 t1 bands dark o' rows a b bs last p n, tinv o -> settled cm o -> In "zp"%string (columns (ob_frame o)) ->
  oversampled ball o cm ra dec radius dt t0 t1 bands dark o' rows a b bs last p n -> new_table o ra dec a b dt bs last p n o'.
Proof.
  intros ball o cm ra dec radius dt t0 t1 bands dark o' rows a b bs last p n T ST HZ OV. pose proof (ov_make _ _ _ _ _ _ _ _ _ _ _ _ _ _ _ _ _ _ _ OV) as H.
  destruct (ov_k _ _ _ _ _ _ _ _ _ _ _ _ _ _ _ _ _ _ _ OV) as [K1 K2]. pose proof (ov_n _ _ _ _ _ _ _ _ _ _ _ _ _ _ _ _ _ _ _ OV) as EN.
  set (nf := mkFrame _ _) in H.
  assert (OW : forall c, In c own_names -> In c (columns (ob_frame o))).
  { assert (KK : forall name i x, cell_at o name i = Some x -> In name (columns (ob_frame o))). { intros name i x E. unfold cell_at in E. apply dget_keys. destruct (dget name _); discriminate. }
    intros c [<-|[<-|[<-|[<-|[<-|[]]]]]]; try (apply (ti_req _ T); simpl; tauto).
    - destruct (ov_last _ _ _ _ _ _ _ _ _ _ _ _ _ _ _ _ _ _ _ OV) as [(i & Hi) _]. eapply KK; exact Hi.
    - pose proof (ov_some _ _ _ _ _ _ _ _ _ _ _ _ _ _ _ _ _ _ _ OV) as NB. destruct bs as [|s bs]; [congruence|]. destruct (ov_names _ _ _ _ _ _ _ _ _ _ _ _ _ _ _ _ _ _ _ OV s ltac:(simpl; auto)) as (i & _ & HI).
      apply in_band_spec in HI. eapply KK; exact HI. }
  assert (CN : columns nf = own_names ++ filter (fun c => negb (smem c own_names)) (columns (ob_frame o))).
  { rewrite <- (other_keys (ob_frame o) p). unfold columns, nf, dkeys. cbn [f_cols]. rewrite map_app. reflexivity. }
  assert (CI : forall c, In c (columns nf) <-> In c (columns (ob_frame o))).
  { intros c. rewrite CN, in_app_iff, filter_In. split; [intros [I|[I _]]; auto|]. intros I. destruct (in_dec string_dec c own_names) as [J|J]; auto. right. split; auto. apply smem_false in J. now rewrite J. }
  assert (NR : nrows nf = n) by (unfold nrows, nf; cbn [f_labels]; apply seq_length).
  assert (OK : frame_ok nf).
  { split.
    - rewrite CN. apply NoDup_app_intro.
      + repeat constructor; simpl; intuition discriminate.
      + apply NoDup_filter, (ti_frame _ T).
      + intros c I J. apply filter_In in J. destruct J as [_ J]. apply smem_In in I. rewrite I in J. discriminate.
    - rewrite NR. unfold nf. cbn [f_cols]. apply Forall_app. split.
      + repeat apply Forall_cons; cbn [snd]; try apply Forall_nil; rewrite ?map_length, ?seq_length, ?repeat_length; auto. rewrite tile_length. exact K2.
      + apply Forall_forall. intros [k v] I. unfold other_cols in I. apply in_map_iff in I. destruct I as ([k' v'] & E & _). inversion E. cbn [snd]. unfold copied. rewrite map_length. apply (ov_length _ _ _ _ _ _ _ _ _ _ _ _ _ _ _ _ _ _ _ OV). }
  unfold opsim_make, survey_make in H. destruct (remap_settled cm nf) as (inv & ER). { intros k v I J. apply (ST k v I). now apply CI. }
  match goal with H : _ |- _ => match type of H with bind ?X _ = _ => replace X with (Ok (nf, inv) : result (frame * dict string)) in H by (symmetry; exact ER) end end. cbn [bind] in H. destruct (forallb _ required); [|discriminate]. cbn [negb] in H. cbv zeta in H.
  assert (CZ : ob_contains (mkObs nf inv (survey_values opsim_defaults [] (ob_values o)) (unique_filters nf) [] None) "zp" = true).
  { unfold ob_contains. cbn [ob_frame]. replace (dmem "zp" (f_cols nf)) with true; auto. symmetry. apply dmem_true. apply (CI "zp"%string), HZ. }
  rewrite CZ in H. cbn [bind ob_frame ob_inv ob_values ob_filters ob_footprint] in H. injection H as <-.
  split; cbn [ob_frame ob_values ob_footprint]; auto.
  - split; cbn [ob_frame ob_tree]; auto. intros c Hc. apply CI, (ti_req _ T), Hc.
  - intros i Hi. unfold cell_at. cbn [ob_frame nf f_cols app dget]. cbn. rewrite nth_error_map, nth_error_seq by auto. reflexivity.
  - intros i. unfold cell_at. cbn [ob_frame nf f_cols app dget]. cbn. apply nth_error_map.
  - intros i Hi. unfold cell_at. cbn [ob_frame nf f_cols app dget]. cbn. now apply nth_error_rep.
  - intros i Hi. unfold cell_at. cbn [ob_frame nf f_cols app dget]. cbn. now apply nth_error_rep.
  - intros i Hi. unfold cell_at. cbn [ob_frame nf f_cols app dget]. cbn. rewrite nth_error_map, tile_nth; auto. lia.
  - intros c i q Hc Hq Hl. unfold cell_at. cbn [ob_frame].
    assert (EG : dget c (f_cols nf) = option_map (fun col => copied col p) (dget c (f_cols (ob_frame o)))).
    { rewrite <- other_get by auto. unfold nf. cbn [f_cols]. rewrite dget_app. rewrite (proj2 (dget_None _ c _)); auto. }
    rewrite EG. destruct (dget c (f_cols (ob_frame o))) as [col|] eqn:E; auto. cbn [option_map]. unfold copied. rewrite nth_error_map, Hq. cbn [option_map]. symmetry. apply nth_error_nth'.
    destruct (ti_frame _ T) as [_ FF]. rewrite Forall_forall in FF. pose proof (FF _ (dget_In _ _ _ _ E)) as L. cbn [snd] in L. lia.
Qed.

(** ** C75 *)
(** The new table: as many rows as times from the start, in steps of [dt], below the end; every row has the pointing, the next
    band in turn, an unused identifier and otherwise the content of one old row that sees the pointing in that band, which is
    the one with the darkest sky for the default strategy. *)
Theorem C75_rows : forall ball pick o cm ra dec radius dt t0 t1 bands strategy o', ball_spec ball -> tinv o -> settled cm o -> In "zp"%string (columns (ob_frame o)) -> 0 <= radius <= 180 -> 0 < dt ->
  oversample ball pick o cm ra dec radius dt t0 t1 bands strategy = Ok o' ->
  exists a b bs last, starts o ra dec radius t0 a /\ ends o ra dec radius t1 b /\ a < b /\ bands_used o ra dec radius bands bs /\ bs <> [] /\ last_id o last /\
    (forall i, (i < nrows (ob_frame o'))%nat <-> a + INR i * dt < b) /\ (length bs <= nrows (ob_frame o'))%nat /\ Nat.modulo (nrows (ob_frame o')) (length bs) = 0%nat /\
    (forall c, In c (columns (ob_frame o')) <-> In c (columns (ob_frame o))) /\
    forall i, (i < nrows (ob_frame o'))%nat ->
      cell_at o' "observationId" i = Some (CNum (last + 1 + INR i)) /\ cell_at o' "time" i = Some (CNum (a + INR i * dt)) /\ cell_at o' "ra" i = Some (CNum ra) /\ cell_at o' "dec" i = Some (CNum dec) /\
      exists s q, nth_error bs (i mod length bs) = Some s /\ cell_at o' "filter" i = Some (CStr s) /\ sees_in o ra dec radius s q /\
        (forall c, ~ In c ["observationId"; "time"; "ra"; "dec"; "filter"]%string -> cell_at o' c i = cell_at o c q) /\
        (strategy = "darkest_sky"%string -> exists x, cell_at o "skybrightness" q = Some (CNum x) /\ forall q' y, sees_in o ra dec radius s q' -> cell_at o "skybrightness" q' = Some (CNum y) -> y <= x).
Proof.
  intros ball pick o cm ra dec radius dt t0 t1 bands strategy o' HB T ST HZ HR HD H. destruct (oversample_inv _ _ _ _ _ _ _ _ _ _ _ _ _ HB T HR H) as (rows & a & b & bs & last & p & n & OV).
  pose proof (made_new _ _ _ _ _ _ _ _ _ _ _ _ _ _ _ _ _ _ _ T ST HZ OV) as NT. destruct OV as [(V1 & V2 & V3) VS VE VR VB VN EN [K1 K2] VL VM LP PP _]. destruct NT as [I1 I2 I3 I4 I5 I6 I7 I8 I9 I10 I11].
  exists a, b, bs, last. repeat (split; [assumption|]). rewrite I4.
  destruct (SimulateMore.C67_phases a b dt HD) as (P1 & P2 & _).
  assert (NN : forall i, (i < n)%nat <-> a + INR i * dt < b).
  { intros i. rewrite EN. split.
    - intros L. destruct (nth_error (SimulateModel.arange a b dt) i) as [t|] eqn:E; [|apply nth_error_None in E; lia]. destruct (P1 _ _ E) as [-> ?]. auto.
    - intros L. apply P2 in L. apply nth_error_Some. congruence. }
  split; [exact NN|]. split; [exact K1|]. assert (LB : length bs <> 0%nat) by (destruct bs; [congruence|discriminate]). split.
  { rewrite <- K2. now apply Nat.mod_mul. }
  split; [exact I5|]. intros i Hi. split; [auto|]. split.
  { rewrite I7. apply NN in Hi. now rewrite (P2 _ Hi). }
  split; [auto|]. split; [auto|].
  destruct (nth_error bs (i mod length bs)) as [s|] eqn:ES; [|apply nth_error_None in ES; pose proof (Nat.mod_upper_bound i (length bs) LB); lia].
  destruct (PP i s ES Hi) as (q & Q1 & Q2 & Q3 & Q4). exists s, q. split; auto. split; [now rewrite I10, ES|]. split; [split; [now apply V3|now apply in_band_spec]|].
  assert (LQ : (q < nrows (ob_frame o))%nat). { apply V3 in Q2. destruct Q2 as (x & y & z & A & _). now apply (num_at_lt _ _ _ _ T A). }
  split; [intros c Hc; now apply I11|]. intros ->. rewrite String.eqb_refl in Q4. destruct (Q4 eq_refl) as (c & x & E1 & E2 & E3). exists x.
  assert (CC : forall j y, cell_at o "skybrightness" j = Some (CNum y) <-> nth j c CNan = CNum y).
  { intros j y. unfold cell_at. rewrite E1. split; intros E.
    - apply nth_error_nth with (d := CNan) in E. auto.
    - rewrite <- E. apply nth_error_nth'. destruct (le_lt_dec (length c) j); auto. rewrite nth_overflow in E by auto. discriminate. }
  split; [now apply CC|]. intros q' y [S1 S2] Hy. apply (E3 q' y); [now apply V3|now apply in_band_spec|now apply CC].
Qed.
(** The new identifiers are different from each other and from the old ones. *)
Theorem C75_ids : forall ball pick o cm ra dec radius dt t0 t1 bands strategy o', ball_spec ball -> tinv o -> settled cm o -> In "zp"%string (columns (ob_frame o)) -> 0 <= radius <= 180 -> 0 < dt ->
  oversample ball pick o cm ra dec radius dt t0 t1 bands strategy = Ok o' ->
  (forall i j x, (i < nrows (ob_frame o'))%nat -> (j < nrows (ob_frame o'))%nat -> cell_at o' "observationId" i = Some x -> cell_at o' "observationId" j = Some x -> i = j) /\
  (forall i j x y, (i < nrows (ob_frame o'))%nat -> cell_at o' "observationId" i = Some (CNum x) -> cell_at o "observationId" j = Some (CNum y) -> y < x).
Proof.
  intros ball pick o cm ra dec radius dt t0 t1 bands strategy o' HB T ST HZ HR HD H. destruct (C75_rows _ _ _ _ _ _ _ _ _ _ _ _ _ HB T ST HZ HR HD H) as (a & b & bs & last & _ & _ & _ & _ & _ & [_ VL] & _ & _ & _ & _ & RW). split.
  - intros i j x Hi Hj Ei Ej. destruct (RW i Hi) as [A _]. destruct (RW j Hj) as [B _]. apply INR_eq. assert (E : CNum (last + 1 + INR i) = CNum (last + 1 + INR j)) by congruence. injection E as E. lra.
  - intros i j x y Hi Ei Ej. destruct (RW i Hi) as [A _]. specialize (VL j y Ej). rewrite Ei in A. injection A as ->. pose proof (pos_INR i). lra.
Qed.
(** The survey's values are those of the old table. *)
Theorem C75_values : forall ball pick o cm ra dec radius dt t0 t1 bands strategy o' k v, ball_spec ball -> tinv o -> settled cm o -> In "zp"%string (columns (ob_frame o)) -> 0 <= radius <= 180 ->
  NoDup (dkeys (ob_values o)) -> oversample ball pick o cm ra dec radius dt t0 t1 bands strategy = Ok o' -> dget k (ob_values o) = Some v -> dget k (ob_values o') = Some v.
Proof.
  intros ball pick o cm ra dec radius dt t0 t1 bands strategy o' k v HB T ST HZ HR NV H HK. destruct (oversample_inv _ _ _ _ _ _ _ _ _ _ _ _ _ HB T HR H) as (rows & a & b & bs & last & p & n & OV).
  pose proof (made_new _ _ _ _ _ _ _ _ _ _ _ _ _ _ _ _ _ _ _ T ST HZ OV) as NT. rewrite (nt_values _ _ _ _ _ _ _ _ _ _ _ NT), survey_value_get; auto; [|constructor]. unfold value_given. now rewrite HK.
Qed.
(** Searching the new table at the pointing finds all its rows in the time window, whatever the radius. *)
Theorem C75_search : forall ball pick o cm ra dec radius dt t0 t1 bands strategy o' r tmin tmax res, ball_spec ball -> tinv o -> settled cm o -> In "zp"%string (columns (ob_frame o)) -> 0 <= radius <= 180 ->
  oversample ball pick o cm ra dec radius dt t0 t1 bands strategy = Ok o' -> 0 <= r <= 180 -> range_search ball o' (QScalar ra) (QScalar dec) (Some r) tmin tmax = Ok res ->
  exists l, res = One l /\ NoDup l /\ forall i, In i l <->
    exists t, cell_at o' "time" i = Some (CNum t) /\ (forall x, bound_of tmin 0 = Some x -> x <= t) /\ (forall x, bound_of tmax 0 = Some x -> t <= x).
Proof.
  intros ball pick o cm ra dec radius dt t0 t1 bands strategy o' r tmin tmax res HB T ST HZ HR H Hr HS. destruct (oversample_inv _ _ _ _ _ _ _ _ _ _ _ _ _ HB T HR H) as (rows & a & b & bs & last & p & n & OV).
  pose proof (made_new _ _ _ _ _ _ _ _ _ _ _ _ _ _ _ _ _ _ _ T ST HZ OV) as NT. destruct NT as [I1 I2 I3 I4 I5 I6 I7 I8 I9 I10 I11].
  destruct (exact_scalar_inv _ _ _ _ _ _ _ _ _ HB I1 (eq_refl : radius_of o' (Some r) = Some r) Hr HS) as (l & E & N & M). exists l. split; auto. split; auto. intros i. rewrite M. unfold matches. rewrite I3.
  assert (NTI : forall t, num_at o' "time" i = Some t <-> cell_at o' "time" i = Some (CNum t)).
  { intros t. unfold num_at. rewrite I7. destruct (nth_error (SimulateModel.arange a b dt) i); simpl; split; intros X; inversion X; auto. }
  split.
  - intros (x & y & t & A1 & A2 & A3 & A4 & A5 & A6 & _). exists t. split; [now apply NTI|auto].
  - intros (t & A1 & A2 & A3). assert (Hi : (i < n)%nat). { rewrite <- I4. apply NTI in A1. now apply (num_at_lt _ _ _ _ I1 A1). }
    exists ra, dec, t. unfold num_at at 1 2. rewrite I8, I9 by auto. split; [reflexivity|]. split; [reflexivity|]. split; [now apply NTI|]. rewrite sep_same. split; [lra|]. split; auto. split; auto. intros fp E1. discriminate.
Qed.

Lemma numbers_members : forall rs l, numbers (map CNum rs) = Ok l -> forall r, In r l <-> In r rs.
Proof.
  intros rs l H. destruct (numbers_spec _ _ H) as (_ & rs' & E & S). assert (rs' = rs); [|subst; auto].
  clear -E. revert rs' E. induction rs as [|x l IH]; intros [|y l'] E; try discriminate; auto. simpl in E. injection E as -> E. f_equal. auto.
Qed.
Lemma prototypes_ok : forall pick f rows names bands strategy, In strategy ["darkest_sky"; "random"]%string -> (forall s, In s bands -> exists i, In i rows /\ in_band f s i = true) ->
  (strategy = "darkest_sky"%string -> exists c, dget "skybrightness" (f_cols f) = Some c /\ forall i, In i rows -> exists x, nth i c CNan = CNum x) ->
  exists p, prototypes pick f rows names bands strategy = Ok p.
Proof.
  intros pick f rows names bands strategy HS HB HD. unfold prototypes. cbv zeta.
  assert (FO : forall B (step : list (option nat) -> B -> result (list (option nat))) bs, (forall l b, In b bs -> exists l', step l b = Ok l') -> forall l, exists l', fold_res step l bs = Ok l').
  { intros B step. induction bs as [|b bs IH]; intros H l; cbn [fold_res]; eauto. destruct (H l b (or_introl eq_refl)) as (l' & ->). apply IH. intros; apply H; simpl; auto. }
  destruct HS as [<-|[<-|[]]]; cbn [String.eqb Ascii.eqb].
  - replace (String.eqb "darkest_sky" "darkest_sky") with true by reflexivity. apply FO. intros l b Hb. unfold darkest. destruct (HD eq_refl) as (c & -> & HC). pose proof (best_spec c (filter (in_band f b) rows)) as BS.
    destruct (best c _) as [[i x]|]; [eauto|]. exfalso. destruct (HB b Hb) as (i & I1 & I2). destruct (HC i I1) as (x & Hx). apply (BS i x); auto. now apply filter_In.
  - replace (String.eqb "random" "darkest_sky") with false by reflexivity. replace (String.eqb "random" "random") with true by reflexivity. apply FO. intros l [k b] Hb. unfold sampled. cbv zeta. cbn [fst snd].
    apply in_combine_r in Hb. destruct (HB b Hb) as (i & I1 & I2). destruct (filter (in_band f b) rows) eqn:E; [|eauto]. assert (I : In i (filter (in_band f b) rows)) by now apply filter_In. rewrite E in I. contradiction.
Qed.
(** When a pointing is observed and the time range is not empty, the table is made exactly when the bands go evenly into
    the times; otherwise the call fails. *)
Theorem C75_outcome : forall ball pick o cm ra dec radius dt t0 t1 bands strategy a b bs ids n, ball_spec ball -> tinv o -> settled cm o -> In "zp"%string (columns (ob_frame o)) -> 0 <= radius <= 180 -> 0 < dt ->
  (exists i, sees o ra dec radius i) -> (forall i, sees o ra dec radius i -> exists s, cell_at o "filter" i = Some (CStr s)) -> In "filter"%string (columns (ob_frame o)) ->
  dget "observationId" (f_cols (ob_frame o)) = Some (map CNum ids) ->
  (strategy = "random"%string \/ strategy = "darkest_sky"%string /\ In "skybrightness"%string (columns (ob_frame o)) /\ forall i, sees o ra dec radius i -> exists x, cell_at o "skybrightness" i = Some (CNum x)) ->
  starts o ra dec radius t0 a -> ends o ra dec radius t1 b -> a < b -> bands_used o ra dec radius bands bs -> bs <> [] ->
  (forall i, (i < n)%nat <-> a + INR i * dt < b) ->
  ((length bs <= n)%nat /\ Nat.modulo n (length bs) = 0%nat -> exists o', oversample ball pick o cm ra dec radius dt t0 t1 bands strategy = Ok o') /\
  (~ ((length bs <= n)%nat /\ Nat.modulo n (length bs) = 0%nat) -> oversample ball pick o cm ra dec radius dt t0 t1 bands strategy = Err ValueError).
Proof.
  intros ball pick o cm ra dec radius dt t0 t1 bands strategy a b bs ids n HB T ST HZ HR HD HSee HF IF HI HSt HA HBe HAB HBS HNE HN.
  assert (ES : exists res, range_search ball o (QScalar ra) (QScalar dec) (Some radius) TNone TNone = Ok res) by (unfold range_search; cbn; eauto). destruct ES as (res & ES).
  destruct (exact_scalar_inv _ _ _ _ _ _ _ _ _ HB T (eq_refl : radius_of o (Some radius) = Some radius) HR ES) as (rows & -> & ND & SP). cbn [bound_of] in SP. fold (sees o ra dec radius) in SP.
  unfold oversample. cbv zeta. rewrite ES. cbn [bind].
  assert (RN : rows <> []). { destruct HSee as (i & Hi). apply SP in Hi. intros ->. contradiction. }
  replace (length rows =? 0)%nat with false by (symmetry; apply Nat.eqb_neq; destruct rows; [congruence|discriminate]).
  assert (IR : forall i, In i rows -> (i < nrows (ob_frame o))%nat). { intros i Hi. apply SP in Hi. destruct Hi as (x & y & z & A & _). now apply (num_at_lt _ _ _ _ T A). }
  assert (ET : exists tc, cells_of (ob_frame o) "time" rows = Ok tc). { unfold cells_of. assert (I : In "time"%string (columns (ob_frame o))) by (apply (ti_req _ T); simpl; tauto). apply dget_keys in I. destruct (dget "time" _); [eauto|congruence]. }
  destruct ET as (tc & ET). rewrite ET. cbn [bind]. destruct (cells_of_spec _ _ _ _ T IR ET) as (_ & LT & CT).
  assert (NT : forall t, In t (map num_of tc) <-> exists i, sees o ra dec radius i /\ num_at o "time" i = Some t).
  { intros t. split.
    - intros I. apply in_map_iff in I. destruct I as (x & <- & I). apply In_nth_error in I. destruct I as (k & Hk). assert (LK : (k < length rows)%nat) by (rewrite <- LT; apply nth_error_Some; congruence).
      destruct (nth_error rows k) as [i|] eqn:EI; [|apply nth_error_None in EI; lia]. exists i. split; [apply SP; now apply nth_error_In in EI|]. destruct (CT k i EI) as (x' & E1 & E2). unfold num_at. rewrite E2. simpl. congruence.
    - intros (i & S & E). apply SP in S. apply In_nth_error in S. destruct S as (k & Hk). destruct (CT k i Hk) as (x & E1 & E2). unfold num_at in E. rewrite E2 in E. simpl in E. injection E as <-. apply in_map. now apply nth_error_In in E1. }
  assert (NE : map num_of tc <> []). { destruct tc; [destruct rows; [congruence|discriminate]|discriminate]. }
  assert (EA : (match t0 with Some t => Ok t | None => SedModel.list_min (map num_of tc) end) = Ok a).
  { destruct t0 as [t|]; simpl in HA; [congruence|]. destruct (SedModel.list_min (map num_of tc)) as [m|] eqn:E; [|destruct (map num_of tc); [congruence|discriminate]].
    apply SedProps.list_min_spec in E. destruct E as [A1 A2]. destruct HA as [B1 B2]. f_equal. apply NT in A1. destruct A1 as (i & S1 & S2). specialize (B2 i m S1 S2). apply NT in B1. specialize (A2 a B1). lra. }
  assert (EB : (match t1 with Some t => Ok t | None => SedModel.list_max (map num_of tc) end) = Ok b).
  { destruct t1 as [t|]; simpl in HBe; [congruence|]. destruct (SedModel.list_max (map num_of tc)) as [m|] eqn:E; [|destruct (map num_of tc); [congruence|discriminate]].
    apply SedProps.list_max_spec in E. destruct E as [A1 A2]. destruct HBe as [B1 B2]. f_equal. apply NT in A1. destruct A1 as (i & S1 & S2). specialize (B2 i m S1 S2). apply NT in B1. specialize (A2 b B1). lra. }
  rewrite EA. cbn [bind]. rewrite EB. cbn [bind]. replace (Rleb b a) with false by (symmetry; apply Rleb_false; lra).
  assert (EF : exists fc, cells_of (ob_frame o) "filter" rows = Ok fc). { unfold cells_of. apply dget_keys in IF. destruct (dget "filter" _); [eauto|congruence]. }
  destruct EF as (fc & EF). rewrite EF. cbn [bind]. destruct (cells_of_spec _ _ _ _ T IR EF) as (_ & LF & CF).
  assert (EX : exists ss, fc = map CStr ss).
  { assert (Y : forall c, In c fc -> exists s, c = CStr s).
    { intros c I. apply In_nth_error in I. destruct I as (k & Hk). assert (LK : (k < length rows)%nat) by (rewrite <- LF; apply nth_error_Some; congruence).
      destruct (nth_error rows k) as [i|] eqn:EI; [|apply nth_error_None in EI; lia]. destruct (CF k i EI) as (x & E1 & E2). destruct (HF i) as (s & Hs); [apply SP; now apply nth_error_In in EI|]. exists s. congruence. }
    clear -Y. induction fc as [|c fc IH]; [exists []; auto|]. destruct (Y c (or_introl eq_refl)) as (s & ->). destruct IH as (ss & ->); [intros; apply Y; simpl; auto|]. now exists (s :: ss). }
  destruct EX as (ss & ->). destruct (texts_ok ss) as (nm & EX). rewrite EX. cbn [bind]. destruct (texts_spec _ _ EX) as (ss' & Ess & SN).
  assert (NF : forall s, In s (SedModel.unique_names nm) <-> exists i, sees_in o ra dec radius s i).
  { intros s. rewrite SedBands.unique_names_In, SN. rewrite Ess in CF, LF. split.
    - intros I. apply In_nth_error in I. destruct I as (k & Hk). assert (LK : (k < length rows)%nat) by (rewrite <- LF, map_length; apply nth_error_Some; congruence).
      destruct (nth_error rows k) as [i|] eqn:EI; [|apply nth_error_None in EI; lia]. exists i. split; [apply SP; now apply nth_error_In in EI|]. destruct (CF k i EI) as (x' & E1 & E2). rewrite nth_error_map, Hk in E1. simpl in E1. congruence.
    - intros (i & S & E). apply SP in S. apply In_nth_error in S. destruct S as (k & Hk). destruct (CF k i Hk) as (x & E1 & E2). rewrite nth_error_map in E1. destruct (nth_error ss' k) as [s'|] eqn:ESK; [|discriminate]. simpl in E1.
      apply nth_error_In with k. congruence. }
  assert (EBS : exists bs', (match bands with None => Ok (SedModel.unique_names nm) | Some b => if forallb (fun s => smem s (SedModel.unique_names nm)) b then Ok b else Err ValueError end) = Ok bs' /\ length bs' = length bs /\ forall s, In s bs' -> exists i, sees_in o ra dec radius s i).
  { destruct bands as [l|]; simpl in HBS.
    - destruct HBS as [-> HL]. exists l. replace (forallb _ l) with true; auto. symmetry. apply forallb_forall. intros s Hs. apply smem_In, NF, HL, Hs.
    - exists (SedModel.unique_names nm). split; auto. split; [|intros s; apply NF]. destruct HBS as [B1 B2]. apply Permutation.Permutation_length. apply Permutation.NoDup_Permutation.
      + apply SedBands.sorted_names_NoDup, SedBands.unique_names_sorted.
      + now apply SedBands.sorted_names_NoDup.
      + intros s. rewrite NF, B2. tauto. }
  destruct EBS as (bs' & -> & LBS & HB'). cbn [bind]. replace (Reqb dt 0) with false by (symmetry; apply Reqb_false; lra).
  assert (EN : length (SimulateModel.arange a b dt) = n).
  { destruct (SimulateMore.C67_phases a b dt HD) as (P1 & P2 & _). assert (X : forall i, (i < length (SimulateModel.arange a b dt))%nat <-> (i < n)%nat).
    { intros i. rewrite HN. split.
      - intros L. destruct (nth_error (SimulateModel.arange a b dt) i) as [t|] eqn:E; [|apply nth_error_None in E; lia]. destruct (P1 _ _ E) as [-> ?]. auto.
      - intros L. apply P2 in L. apply nth_error_Some. congruence. }
    destruct (Nat.lt_total (length (SimulateModel.arange a b dt)) n) as [L|[L|L]]; auto; apply X in L; lia. }
  rewrite EN, HI, LBS.
  assert (LB : length bs <> 0%nat) by (destruct bs; [congruence|discriminate]).
  destruct (numbers_ok ids) as (idl & EI). rewrite EI. cbn [bind].
  assert (EL : exists last, SedModel.list_max idl = Ok last).
  { destruct idl as [|x idl]; [|simpl; eauto]. exfalso. pose proof (numbers_members _ _ EI) as M. destruct ids as [|y ids]; [|apply (M y); simpl; auto].
    destruct (ti_frame _ T) as [_ FF]. rewrite Forall_forall in FF. pose proof (FF _ (dget_In _ _ _ _ HI)) as L. cbn in L. destruct rows as [|i rows]; [congruence|]. specialize (IR i ltac:(simpl; auto)). lia. }
  destruct EL as (last & EL). rewrite EL. cbn [bind]. replace (length bs =? 0)%nat with false by (symmetry; now apply Nat.eqb_neq). rewrite tile_length, LBS.
  split.
  - intros [K1 K2]. replace (n <? length bs)%nat with false by (symmetry; apply Nat.ltb_ge; auto).
    assert (K3 : (n / length bs * length bs = n)%nat) by (pose proof (Nat.div_mod n (length bs) LB); lia). replace (n / length bs * length bs =? n)%nat with true by (symmetry; now apply Nat.eqb_eq). cbn [negb].
    destruct (prototypes_ok pick (ob_frame o) rows (tile bs' (n / length bs)) bs' strategy) as (p & EP).
    + destruct HSt as [->|[-> _]]; simpl; tauto.
    + intros s Hs. destruct (HB' s Hs) as (i & S1 & S2). exists i. split; [now apply SP|now apply in_band_spec].
    + intros ->. destruct HSt as [E|(_ & IS & HSk)]; [discriminate|]. apply dget_keys in IS. destruct (dget "skybrightness" (f_cols (ob_frame o))) as [c|] eqn:EC; [|congruence]. exists c. split; auto.
      intros i Hi. apply SP in Hi. destruct (HSk i Hi) as (x & Hx). exists x. unfold cell_at in Hx. rewrite EC in Hx. now apply nth_error_nth with (d := CNan) in Hx.
    + rewrite EP. cbn [bind]. destruct (prototypes_spec _ _ _ _ _ _ _ ltac:(intros s; apply tile_In) EP) as [LP _].
      set (nf := mkFrame _ _).
      assert (OWN : forall c, In c own_names -> In c (columns (ob_frame o))).
      { intros c [<-|[<-|[<-|[<-|[<-|[]]]]]]; try (apply (ti_req _ T); simpl; tauto); auto. apply dget_keys. congruence. }
      assert (CI : forall c, In c (columns nf) <-> In c (columns (ob_frame o))).
      { assert (CN : columns nf = own_names ++ filter (fun c => negb (smem c own_names)) (columns (ob_frame o))).
        { rewrite <- (other_keys (ob_frame o) p). unfold columns, nf, dkeys. cbn [f_cols]. rewrite map_app. reflexivity. }
        intros c. rewrite CN, in_app_iff, filter_In. split; [intros [I|[I _]]; auto|]. intros I. destruct (in_dec string_dec c own_names) as [J|J]; auto. right. split; auto. apply smem_false in J. now rewrite J. }
      destruct (remap_settled cm nf) as (inv & ER). { intros k v I J. apply (ST k v I). now apply CI. }
      unfold opsim_make, survey_make. cbv iota. match goal with |- context [bind ?X _] => replace X with (Ok (nf, inv) : result (frame * dict string)) by (symmetry; exact ER) end. cbn [bind].
      replace (forallb (fun c => smem c (columns nf)) required) with true; [|symmetry; apply forallb_forall; intros c Hc; apply smem_In, CI, (ti_req _ T), Hc]. cbn [negb]. cbv zeta.
      assert (CZ : ob_contains (mkObs nf inv (survey_values opsim_defaults [] (ob_values o)) (unique_filters nf) [] None) "zp" = true).
      { unfold ob_contains. cbn [ob_frame]. replace (dmem "zp" (f_cols nf)) with true; auto. symmetry. apply dmem_true. apply (CI "zp"%string), HZ. }
      rewrite CZ. cbn [bind]. eauto.
  - intros NK. destruct (n <? length bs)%nat eqn:E; auto. apply Nat.ltb_ge in E. destruct (n / length bs * length bs =? n)%nat eqn:E2; auto. exfalso. apply NK. split; auto. apply Nat.eqb_eq in E2. rewrite <- E2. now apply Nat.mod_mul.
Qed.

(** The tables made with the default column names are as required. *)
Lemma opsim_nodup : NoDup (dkeys opsim_colnames) /\ NoDup (map snd opsim_colnames).
Proof. split; repeat constructor; simpl; intuition discriminate. Qed.
Theorem C75_opsim : forall f meta kw fp o, frame_ok f -> NoDup (dkeys meta) -> NoDup (dkeys kw) -> opsim_make f None meta kw fp = Ok o ->
  tinv o /\ settled opsim_colnames o /\ In "zp"%string (columns (ob_frame o)) /\ NoDup (dkeys (ob_values o)).
Proof.
  intros f meta kw fp o F NM NK H. pose proof H as H'. unfold opsim_make in H'. destruct (survey_base _ _ _ _ _ _ _ _ H') as (o0 & E0 & M).
  destruct (opsim_grows f None meta kw fp o o0 F (proj1 opsim_nodup) E0 H) as (G & T & O). cbv zeta in *. split; auto.
  pose proof (make_remap _ _ _ _ _ _ E0) as HR. unfold remap in HR. destruct (fold_res _ _ opsim_colnames) as [[nm inv]|] eqn:EFo; [|discriminate]. cbn [bind fst snd] in HR. injection HR as EFr EI.
  destruct (remap_fold_eq _ _ _ _ _ EFo) as [B1 B2]. cbn [fst snd] in *.
  assert (TI : forall l c, target (map (fun c : string => (c, c)) l) c = c). { intros l c. unfold target. induction l as [|x l IH]; simpl; auto. destruct (String.eqb c x) eqn:E; auto. now apply String.eqb_eq in E. }
  split; [|split].
  - intros k v I J. apply O in J. destruct J as [->|J]; [simpl in I; intuition congruence|]. rewrite <- EFr in J. unfold columns in J. cbn [f_cols] in J. rewrite rename_keys in J. apply in_map_iff in J. destruct J as (c & EC & HC).
    destruct (in_dec string_dec c (map snd opsim_colnames)) as [IC|IC].
    + apply in_map_iff in IC. destruct IC as ([k' c'] & <- & IC). cbn [snd] in *. destruct (B2 k' c' (proj2 opsim_nodup) IC) as [_ B3].
      rewrite B3 in EC by (apply dmem_true; unfold dkeys; rewrite map_map; cbn [fst]; now rewrite map_id). subst k'.
      clear -I IC. simpl in I, IC. intuition congruence.
    + destruct (B1 c IC) as [B3 _]. rewrite B3, TI in EC. subst c. exfalso. apply IC. apply in_map_iff. exists (k, v). auto.
  - destruct M as (o1 & M & ->). cbn [ob_frame]. destruct (ob_contains o0 "zp") eqn:CZ.
    + subst o1. cbn [ob_frame]. unfold ob_contains in CZ. apply orb_prop in CZ. destruct CZ as [CZ|CZ]; [now apply dmem_true in CZ|]. exfalso.
      assert (N : dget "zp" (ob_inv o0) = None). { rewrite <- EI. destruct (B1 "zp"%string) as [_ ->]; [simpl; intuition discriminate|reflexivity]. }
      rewrite N in CZ. discriminate.
    + unfold opsim_zero_points in M. cbv zeta in M. destruct (negb _); [discriminate|]. repeat (match type of M with bind ?X _ = _ => destruct X; cbn [bind] in M; [|discriminate] end).
      unfold add_column in M. destruct (_ && _)%bool; [discriminate|]. destruct (_ =? _)%nat; [|discriminate]. injection M as <-. cbn [ob_frame]. unfold columns. cbn [f_cols]. apply In_dkeys_dset. auto.
  - pose proof (gr_values _ _ G) as GV. rewrite GV. cbn [ob_values]. unfold survey_values.
    assert (X : forall l d, NoDup (dkeys d) -> NoDup (dkeys (fold_left (fun acc kv => dset (fst kv) (snd kv) acc) l d : dict sval))) by (induction l as [|x l IH]; intros d HD; simpl; auto; apply IH; now apply NoDup_dset).
    apply X, X. repeat constructor; simpl; intuition discriminate.
Qed.
(** A concrete table: two visits of one field, five days apart. *)
Definition visits (fp : option footprint) : obstable :=
  let f := mkFrame [0; 1]%nat
    [("observationId", [CNum 5; CNum 9]); ("time", [CNum 0; CNum 5]); ("ra", [CNum 0; CNum 0]); ("dec", [CNum 0; CNum 0]); ("filter", [CStr "r"; CStr "g"]); ("skybrightness", [CNum 20; CNum 21]);
     ("zp", [CNum 1; CNum 2])]%string in
  mkObs f [] [] ["g"; "r"]%string (build_tree f) fp.
Lemma visits_inv : forall fp, tinv (visits fp).
Proof. intros fp. split; [split; [repeat constructor; simpl; intuition discriminate|repeat constructor]|intros c [<-|[<-|[<-|[]]]]; simpl; tauto|reflexivity]. Qed.
Lemma visits_sees : forall fp, (forall g, fp = Some g -> g (0, 0) (0, 0) None = true) -> forall i, sees (visits fp) 0 0 1 i <-> (i < 2)%nat.
Proof.
  intros fp HF i. unfold sees, matches. split.
  - intros (x & y & z & A & _). exact (num_at_lt _ _ _ _ (visits_inv fp) A).
  - intros L. destruct i as [|[|i]]; [| |lia]; [exists 0, 0, 0|exists 0, 0, 5]; (split; [reflexivity|]); (split; [reflexivity|]); (split; [reflexivity|]); rewrite sep_same; (split; [lra|]);
      (split; [discriminate|]); (split; [discriminate|]); intros g E; apply HF, E.
Qed.
Lemma visits_bands : forall fp, (forall g, fp = Some g -> g (0, 0) (0, 0) None = true) -> bands_used (visits fp) 0 0 1 None ["g"; "r"]%string.
Proof.
  intros fp HF. split.
  - constructor; [intros x [<-|[]]; reflexivity|]. constructor; [intros x []|constructor].
  - intros s. split.
    + intros [<-|[<-|[]]]; [exists 1%nat|exists 0%nat]; (split; [apply visits_sees; auto|reflexivity]).
    + intros (i & S1 & S2). apply (visits_sees fp HF) in S1. destruct i as [|[|i]]; [| |lia]; injection S2 as <-; simpl; auto.
Qed.
Lemma visits_outcome : forall ball pick fp t1 n, ball_spec ball -> (forall g, fp = Some g -> g (0, 0) (0, 0) None = true) -> 0 < t1 -> (forall i, (i < n)%nat <-> 0 + INR i * 1 < t1) ->
  ((2 <= n)%nat /\ Nat.modulo n 2 = 0%nat -> exists o', oversample ball pick (visits fp) [] 0 0 1 1 None (Some t1) None "darkest_sky" = Ok o') /\
  (~ ((2 <= n)%nat /\ Nat.modulo n 2 = 0%nat) -> oversample ball pick (visits fp) [] 0 0 1 1 None (Some t1) None "darkest_sky" = Err ValueError).
Proof.
  intros ball pick fp t1 n HB HF HT HN. apply (C75_outcome ball pick (visits fp) [] 0 0 1 1 None (Some t1) None "darkest_sky" 0 t1 ["g"; "r"]%string [5; 9] n); auto using visits_inv, visits_bands; try lra; try discriminate; try reflexivity.
  - intros k v [].
  - simpl. tauto.
  - exists 0%nat. apply visits_sees; auto.
  - intros i Hi. apply (visits_sees fp HF) in Hi. destruct i as [|[|i]]; [| |lia]; eexists; reflexivity.
  - simpl. tauto.
  - right. split; auto. split; [simpl; tauto|]. intros i Hi. apply (visits_sees fp HF) in Hi. destruct i as [|[|i]]; [| |lia]; eexists; reflexivity.
  - split; [exists 0%nat; split; [apply visits_sees; auto|reflexivity]|]. intros i t Hi E. apply (visits_sees fp HF) in Hi. destruct i as [|[|i]]; [| |lia]; injection E as <-; lra.
Qed.
Example C75_case : forall ball pick, ball_spec ball -> exists o', oversample ball pick (visits None) [] 0 0 1 1 None (Some 4) None "darkest_sky" = Ok o' /\
  nrows (ob_frame o') = 4%nat /\ cell_at o' "observationId" 3 = Some (CNum 13) /\ cell_at o' "time" 3 = Some (CNum 3) /\ cell_at o' "filter" 3 = Some (CStr "r") /\ cell_at o' "zp" 3 = Some (CNum 1).
Proof.
  intros ball pick HB.
  assert (N4 : forall i, (i < 4)%nat <-> 0 + INR i * 1 < 4).
  { intros i. replace 4 with (INR 4) by (simpl; lra). split; intros H; [apply lt_INR in H; lra|apply INR_lt; lra]. }
  destruct (proj1 (visits_outcome ball pick None 4 4 HB ltac:(discriminate) ltac:(lra) N4) ltac:(split; [lia|reflexivity])) as (o' & H). exists o'. split; auto.
  destruct (C75_rows ball pick (visits None) [] 0 0 1 1 None (Some 4) None "darkest_sky" o') as (a & b & bs & last & ST & EN & _ & BU & _ & LI & NR & _ & _ & _ & RW); auto using visits_inv; try lra; try (intros k v []); [simpl; tauto|].
  simpl in EN. subst b.
  assert (a = 0). { destruct ST as [(i & S1 & S2) S3]. apply (Rle_antisym a 0); [apply (S3 0%nat 0); [apply visits_sees; [discriminate|lia]|reflexivity]|]. apply (visits_sees None ltac:(discriminate)) in S1. destruct i as [|[|i]]; [| |lia]; injection S2 as <-; lra. } subst a.
  assert (last = 9). { destruct LI as [(i & L1) L2]. apply Rle_antisym; [|apply (L2 1%nat 9); reflexivity]. assert (Hi : num_at (visits None) "observationId" i = Some last) by (unfold num_at; now rewrite L1). apply (num_at_lt _ _ _ _ (visits_inv None)) in Hi.
    change (i < 2)%nat in Hi. destruct i as [|[|i]]; [| |lia]; injection L1 as <-; lra. } subst last.
  assert (N : nrows (ob_frame o') = 4%nat).
  { destruct (Nat.lt_total (nrows (ob_frame o')) 4) as [L|[L|L]]; auto; [apply N4, NR in L|apply NR, N4 in L]; lia. }
  split; auto. rewrite N in RW. destruct (RW 3%nat ltac:(lia)) as (R1 & R2 & _ & _ & s & q & Hs & R3 & [S1 S2] & R4 & _).
  assert (EB : bs = ["g"; "r"]%string).
  { destruct BU as [B1 B2]. destruct (visits_bands None ltac:(discriminate)) as [C1 C2]. assert (EX : forall s, In s bs <-> In s ["g"; "r"]%string) by (intros; rewrite B2, C2; tauto).
    assert (LE : length bs = 2%nat). { change 2%nat with (length ["g"; "r"]%string). apply Permutation.Permutation_length, Permutation.NoDup_Permutation; auto using SedBands.sorted_names_NoDup. }
    destruct bs as [|x [|y [|]]]; try discriminate. inversion B1 as [|? ? BL _]; subst. specialize (BL y ltac:(simpl; auto)).
    pose proof (proj1 (EX x) ltac:(simpl; auto)) as X1. pose proof (proj1 (EX y) ltac:(simpl; auto)) as X2. destruct X1 as [<-|[<-|[]]]; destruct X2 as [<-|[<-|[]]]; auto; exfalso; revert BL; vm_compute; try discriminate; auto. }
  subst bs. simpl in Hs. injection Hs as <-.
  split; [rewrite R1; do 2 f_equal; simpl; lra|]. split; [rewrite R2; do 2 f_equal; simpl; lra|]. split; auto.
  rewrite R4 by (simpl; intuition discriminate). apply (visits_sees None ltac:(discriminate)) in S1. destruct q as [|[|q]]; [reflexivity|discriminate|lia].
Qed.
(** Three times and two bands: a failure, although nothing forbids the combination. *)
Theorem C75_uneven_refuted : forall ball pick, ball_spec ball -> oversample ball pick (visits None) [] 0 0 1 1 None (Some 3) None "darkest_sky" = Err ValueError.
Proof.
  intros ball pick HB. apply (visits_outcome ball pick None 3 3 HB); [discriminate|lra| |].
  - intros i. replace 3 with (INR 3) by (simpl; lra). split; intros H; [apply lt_INR in H; lra|apply INR_lt; lra].
  - intros [_ E]. discriminate.
Qed.
(** The detector footprint is not passed on: the new table finds observations where the old one had none. *)
Theorem C75_footprint_refuted : forall ball pick, ball_spec ball -> exists o o', ob_footprint o <> None /\ oversample ball pick o [] 0 0 1 1 None (Some 4) None "darkest_sky" = Ok o' /\
  ob_footprint o' = None /\ range_search ball o (QScalar 1) (QScalar 0) (Some 180) TNone TNone = Ok (One []) /\ exists l, range_search ball o' (QScalar 1) (QScalar 0) (Some 180) TNone TNone = Ok (One l) /\ In 0%nat l.
Proof.
  intros ball pick HB. set (g := fun (q c : R * R) (_ : option R) => Reqb (fst q) (fst c)). assert (HG : forall h, Some g = Some h -> h (0, 0) (0, 0) None = true) by (intros h E; injection E as <-; now apply Reqb_true).
  assert (N4 : forall i, (i < 4)%nat <-> 0 + INR i * 1 < 4).
  { intros i. replace 4 with (INR 4) by (simpl; lra). split; intros H; [apply lt_INR in H; lra|apply INR_lt; lra]. }
  destruct (proj1 (visits_outcome ball pick (Some g) 4 4 HB HG ltac:(lra) N4) ltac:(split; [lia|reflexivity])) as (o' & H). exists (visits (Some g)), o'. split; [discriminate|]. split; auto.
  assert (ST : settled [] (visits (Some g))) by (intros k v []). assert (HZ : In "zp"%string (columns (ob_frame (visits (Some g))))) by (simpl; tauto).
  destruct (oversample_inv _ _ _ _ _ _ _ _ _ _ _ _ _ HB (visits_inv (Some g)) (conj Rle_0_1 (ltac:(lra) : 1 <= 180)) H) as (rows & a & b & bs & last & p & n & OV).
  destruct (made_new _ _ _ _ _ _ _ _ _ _ _ _ _ _ _ _ _ _ _ (visits_inv (Some g)) ST HZ OV) as [I1 I2 I3 I4 I5 I6 I7 I8 I9 I10 I11]. split; auto.
  assert (S180 : forall a b c d, separation a b c d <= 180).
  { intros. unfold separation. pose proof (acos_bound (cos_sep a0 b0 c d)) as [_ B]. pose proof PI_RGT_0 as PP. apply Rmult_le_reg_r with PI; auto. replace (acos (cos_sep a0 b0 c d) * 180 / PI * PI) with (acos (cos_sep a0 b0 c d) * 180) by (field; lra). lra. }
  split.
  - destruct (range_search ball (visits (Some g)) (QScalar 1) (QScalar 0) (Some 180) TNone TNone) as [res|] eqn:ES; [|unfold range_search in ES; cbn in ES; discriminate].
    destruct (exact_scalar_inv _ _ _ _ _ _ _ _ _ HB (visits_inv (Some g)) (eq_refl : radius_of _ (Some 180) = Some 180) ltac:(lra) ES) as (l & -> & _ & SP). destruct l as [|i l]; auto. exfalso.
    destruct (proj1 (SP i) ltac:(simpl; auto)) as (x & y & z & A1 & A2 & A3 & _ & _ & _ & A4). specialize (A4 g eq_refl). unfold g in A4. cbn [fst] in A4. apply Reqb_true in A4.
    pose proof (num_at_lt _ _ _ _ (visits_inv (Some g)) A1) as L. change (i < 2)%nat in L. destruct i as [|[|i]]; [| |lia]; injection A1 as <-; lra.
  - destruct (range_search ball o' (QScalar 1) (QScalar 0) (Some 180) TNone TNone) as [res|] eqn:ES; [|unfold range_search in ES; cbn in ES; discriminate].
    destruct (exact_scalar_inv _ _ _ _ _ _ _ _ _ HB I1 (eq_refl : radius_of _ (Some 180) = Some 180) ltac:(lra) ES) as (l & -> & _ & SP). exists l. split; auto. apply SP.
    assert (NP : (0 < n)%nat). { destruct (ov_k _ _ _ _ _ _ _ _ _ _ _ _ _ _ _ _ _ _ _ OV) as [K _]. pose proof (ov_some _ _ _ _ _ _ _ _ _ _ _ _ _ _ _ _ _ _ _ OV). destruct bs; [congruence|]. simpl in K. lia. }
    destruct (num_at_Some o' "time" 0 I1) as (t & Ht); [apply (ti_req _ I1); simpl; tauto|rewrite I4; exact NP|].
    exists 0, 0, t. unfold num_at at 1 2. rewrite I8, I9 by auto. split; auto. split; auto. split; auto. split; [apply S180|]. split; [discriminate|]. split; [discriminate|]. intros fp E. rewrite I3 in E. discriminate.
Qed.
