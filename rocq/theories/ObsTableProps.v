(** Properties C34-C37 and C66 of observation tables. *)
From Coq Require Import Reals String List Bool Arith Lia Lra Permutation.
From Verif Require Import Base BaseFacts RealBase ObsTableModel.
Import ListNotations.
Open Scope R_scope.

(** ** Specification: great-circle separation (degrees) *)
Definition cos_sep (ra1 dec1 ra2 dec2 : R) : R :=
  sin (radians dec1) * sin (radians dec2) + cos (radians dec1) * cos (radians dec2) * cos (radians ra1 - radians ra2).
Definition separation (ra1 dec1 ra2 dec2 : R) : R := acos (cos_sep ra1 dec1 ra2 dec2) * 180 / PI.
(** What [KDTree.query_ball_point] promises: exactly the points within the distance, each once. *)
Definition ball_spec (ball : list vec3 -> vec3 -> R -> list nat) : Prop :=
  forall pts q r, NoDup (ball pts q r) /\
    forall i, In i (ball pts q r) <-> exists p, nth_error pts i = Some p /\ dist3 p q <= r.
Definition ref_ball (pts : list vec3) (q : vec3) (r : R) : list nat :=
  map fst (filter (fun ip => Rleb (dist3 (snd ip) q) r) (combine (seq 0 (length pts)) pts)).
Lemma combine_seq_nth : forall A (l : list A) s i a, In (i, a) (combine (seq s (length l)) l) <-> (s <= i)%nat /\ nth_error l (i - s) = Some a.
Proof.
  induction l as [|x l IH]; intros s i a; simpl.
  - split; [tauto|]. intros [_ H]. destruct (i - s)%nat; discriminate.
  - rewrite IH. split.
    + intros [H|[H1 H2]].
      * inversion H; subst. split; [lia|]. now rewrite Nat.sub_diag.
      * split; [lia|]. replace (i - s)%nat with (S (i - S s)) by lia. auto.
    + intros [H1 H2]. destruct (Nat.eq_dec i s) as [->|N].
      * rewrite Nat.sub_diag in H2. simpl in H2. left. congruence.
      * right. split; [lia|]. replace (i - s)%nat with (S (i - S s)) in H2 by lia. auto.
Qed.
Lemma ref_ball_spec : ball_spec ref_ball.
Proof.
  intros pts q r. split.
  - unfold ref_ball. assert (N : NoDup (map fst (combine (seq 0 (length pts)) pts))).
    { generalize 0%nat. induction pts as [|p pts IH]; intros s; simpl; constructor; auto.
      intros H. apply in_map_iff in H. destruct H as ([i a] & E & H). simpl in E. subst. apply combine_seq_nth in H. lia. }
    revert N. generalize (combine (seq 0 (length pts)) pts). induction l as [|[i p] l IH]; intros N; simpl; auto.
    simpl in N. inversion N as [|? ? N1 N2]; subst. destruct (Rleb _ _); simpl; auto. constructor; auto.
    intros H. apply N1. apply in_map_iff in H. destruct H as (x & E & H). apply filter_In in H. apply in_map_iff. exists x. tauto.
  - intros i. unfold ref_ball. rewrite in_map_iff. split.
    + intros ([j p] & E & H). simpl in E. subst j. apply filter_In in H. destruct H as [H1 H2]. apply combine_seq_nth in H1.
      rewrite Nat.sub_0_r in H1. exists p. split; [tauto|]. now apply Rleb_true.
    + intros (p & H1 & H2). exists (i, p). split; auto. apply filter_In. split.
      * apply combine_seq_nth. rewrite Nat.sub_0_r. split; [lia|auto].
      * simpl. now apply Rleb_true.
Qed.

(** ** The chord test is the angle test *)
Lemma sq1 : forall x, cos x * cos x = 1 - sin x * sin x.
Proof. intros. pose proof (sin2_cos2 x) as H. unfold Rsqr in H. lra. Qed.
Lemma chord_sq : forall ra1 dec1 ra2 dec2,
  let '(x1, y1, z1) := cart ra1 dec1 in let '(x2, y2, z2) := cart ra2 dec2 in
  (x1 - x2) ^ 2 + (y1 - y2) ^ 2 + (z1 - z2) ^ 2 = 2 - 2 * cos_sep ra1 dec1 ra2 dec2.
Proof.
  intros. unfold cart, cos_sep. rewrite cos_minus.
  set (cd1 := cos (radians dec1)). set (sd1 := sin (radians dec1)). set (ca1 := cos (radians ra1)). set (sa1 := sin (radians ra1)).
  set (cd2 := cos (radians dec2)). set (sd2 := sin (radians dec2)). set (ca2 := cos (radians ra2)). set (sa2 := sin (radians ra2)).
  assert (E1 : cd1 * cd1 = 1 - sd1 * sd1) by apply sq1. assert (E2 : cd2 * cd2 = 1 - sd2 * sd2) by apply sq1.
  assert (E3 : ca1 * ca1 = 1 - sa1 * sa1) by apply sq1. assert (E4 : ca2 * ca2 = 1 - sa2 * sa2) by apply sq1.
  replace ((cd1 * ca1 - cd2 * ca2) ^ 2 + (cd1 * sa1 - cd2 * sa2) ^ 2 + (sd1 - sd2) ^ 2)
    with ((cd1 * cd1) * (ca1 * ca1 + sa1 * sa1) + (cd2 * cd2) * (ca2 * ca2 + sa2 * sa2) + sd1 * sd1 + sd2 * sd2
          - 2 * (sd1 * sd2 + cd1 * cd2 * (ca1 * ca2 + sa1 * sa2))) by ring.
  rewrite E1, E2, E3, E4. ring.
Qed.
Lemma cos_sep_bounds : forall ra1 dec1 ra2 dec2, -1 <= cos_sep ra1 dec1 ra2 dec2 <= 1.
Proof.
  intros. unfold cos_sep. set (a := radians dec1). set (b := radians dec2). set (c := radians ra1 - radians ra2).
  pose proof (COS_bound c) as [C1 C2].
  pose proof (COS_bound (a - b)) as [B1 B2]. pose proof (COS_bound (a + b)) as [D1 D2].
  rewrite cos_minus in B1, B2. rewrite cos_plus in D1, D2.
  set (p := cos a * cos b) in *. set (s := sin a * sin b) in *. clearbody p s.
  assert (Rabs (p * cos c) <= Rabs p).
  { rewrite Rabs_mult. rewrite <- (Rmult_1_r (Rabs p)) at 2. apply Rmult_le_compat_l; [apply Rabs_pos|]. apply Rabs_le. lra. }
  destruct (Rcase_abs p) as [P|P]; [rewrite (Rabs_left p) in H by auto|rewrite (Rabs_right p) in H by auto];
    apply Rabs_def2_le in H || (pose proof (Rle_abs (p * cos c)); pose proof (Rle_abs (- (p * cos c))); rewrite Rabs_Ropp in *); lra.
Qed.
Theorem C34_chord_is_angle : forall ra1 dec1 ra2 dec2 r, 0 <= r <= 180 ->
  (dist3 (cart ra1 dec1) (cart ra2 dec2) <= 2 * sin (1 / 2 * radians r) <-> separation ra1 dec1 ra2 dec2 <= r).
Proof.
  intros ra1 dec1 ra2 dec2 r Hr.
  assert (HR : 0 <= radians r <= PI).
  { unfold radians. pose proof PI_RGT_0. split; [apply Rmult_le_pos; [apply Rmult_le_pos|]; lra|].
    assert (r * PI <= 180 * PI) by (apply Rmult_le_compat_r; lra). lra. }
  pose proof (chord_sq ra1 dec1 ra2 dec2) as CS. pose proof (cos_sep_bounds ra1 dec1 ra2 dec2) as CB.
  unfold dist3. destruct (cart ra1 dec1) as [[x1 y1] z1]. destruct (cart ra2 dec2) as [[x2 y2] z2]. rewrite CS.
  set (c := cos_sep ra1 dec1 ra2 dec2) in *.
  assert (S0 : 0 <= sin (1 / 2 * radians r)) by (apply sin_ge_0; lra).
  assert (S2 : (2 * sin (1 / 2 * radians r)) ^ 2 = 2 - 2 * cos (radians r)).
  { replace (radians r) with (2 * (1 / 2 * radians r)) at 2 by field. rewrite cos_2a_sin. ring. }
  assert (A : sqrt (2 - 2 * c) <= 2 * sin (1 / 2 * radians r) <-> cos (radians r) <= c).
  { rewrite <- (sqrt_pow2 (2 * sin (1 / 2 * radians r))) by lra. rewrite S2. split.
    - intros H. pose proof (COS_bound (radians r)). apply sqrt_le_0 in H; lra.
    - intros H. pose proof (COS_bound (radians r)). apply sqrt_le_1; lra. }
  rewrite A. unfold separation. fold c. pose proof (acos_bound c) as AB. pose proof (cos_acos c CB) as CA. pose proof PI_RGT_0 as PP.
  assert (E : acos c * 180 / PI <= r <-> acos c <= radians r).
  { unfold radians. split; intros H.
    - apply Rmult_le_reg_r with (180 / PI); [apply Rdiv_lt_0_compat; lra|].
      replace (r * PI / 180 * (180 / PI)) with r by (field; lra). unfold Rdiv in *. lra.
    - apply Rmult_le_compat_r with (r := 180 / PI) in H; [|left; apply Rdiv_lt_0_compat; lra].
      replace (r * PI / 180 * (180 / PI)) with r in H by (field; lra). unfold Rdiv in *. lra. }
  rewrite E. rewrite <- CA at 1. split; intros H.
  - destruct (Rle_or_lt (acos c) (radians r)) as [|L]; auto. exfalso.
    pose proof (cos_decreasing_1 (radians r) (acos c) (proj1 HR) (proj2 HR) (proj1 AB) (proj2 AB) L). lra.
  - destruct (Rle_lt_or_eq_dec _ _ H) as [L|L]; [|rewrite L; lra].
    left. apply cos_decreasing_1; lra.
Qed.

(** ** Well-formed frames and the tables a user can hold *)
Definition frame_ok (f : frame) : Prop :=
  NoDup (columns f) /\ Forall (fun kc => length (snd kc) = nrows f) (f_cols f).
Inductive tbl : obstable -> Prop :=
| tbl_make : forall f cm meta kw fp o, frame_ok f -> (forall d, cm = Some d -> NoDup (dkeys d)) ->
    ob_make f cm meta kw fp = Ok o -> tbl o
| tbl_add : forall o name v ow o', tbl o -> name <> "ra"%string -> name <> "dec"%string ->
    add_column o name v ow = Ok o' -> tbl o'
| tbl_const : forall o name c b o', tbl o -> assign_constant o name c = Ok (b, o') -> tbl o'
| tbl_filter : forall o r o', tbl o -> filter_rows o r = Ok o' -> tbl o'.

(** *** Renaming *)
Definition target (nm : dict string) (c : string) : string := match dget c nm with Some k => k | None => c end.
Lemma rename_keys : forall A nm (d : dict A), dkeys (rename_cols nm d) = map (target nm) (dkeys d).
Proof. intros. unfold rename_cols, dkeys. rewrite !map_map. reflexivity. Qed.
Record rinv (cols : list string) (done : list string) (nm inv : dict string) : Prop := {
  ri_mem : forall c, dmem c nm = true <-> In c cols;
  ri_inj : forall c1 c2, In c1 cols -> In c2 cols -> target nm c1 = target nm c2 -> c1 = c2;
  ri_new : forall c, In c cols -> target nm c = c \/ (~ In (target nm c) cols /\ In (target nm c) done)
}.
Lemma dmem_dset : forall V c k (v : V) d, dmem c (dset k v d) = (String.eqb c k || dmem c d)%bool.
Proof.
  intros. unfold dmem. rewrite dget_dset. destruct (String.eqb c k); auto.
Qed.
Lemma rinv_step : forall cols done nm inv k v nm' inv', rinv cols done nm inv -> ~ In k done ->
  remap_step cols (nm, inv) (k, v) = Ok (nm', inv') -> rinv cols (k :: done) nm' inv'.
Proof.
  intros cols done nm inv k v nm' inv' [R1 R2 R3] HK H. simpl in H.
  destruct (dmem v nm) eqn:EV; [destruct (smem k cols && negb (String.eqb k v))%bool eqn:EC; [discriminate|]|]; injection H as <- <-.
  - assert (VC : In v cols) by now apply R1.
    assert (KC : In k cols -> k = v).
    { intros HI. apply smem_In in HI. rewrite HI in EC. simpl in EC. apply negb_false_iff in EC. now apply String.eqb_eq. }
    assert (T : forall c, target (dset v k nm) c = if String.eqb c v then k else target nm c).
    { intros c. unfold target. rewrite dget_dset. destruct (String.eqb c v); auto. }
    assert (TN : forall c, In c cols -> c <> v -> target nm c <> k).
    { intros c HC HN E. destruct (R3 c HC) as [E'|[_ E']].
      - rewrite E in E'. subst c. apply HN. now apply KC.
      - rewrite E in E'. auto. }
    split.
    + intros c. rewrite dmem_dset, orb_true_iff, String.eqb_eq, R1. split; [intros [->|]; auto|auto].
    + intros c1 c2 H1 H2. rewrite !T. destruct (String.eqb c1 v) eqn:E1, (String.eqb c2 v) eqn:E2; intros E.
      * apply String.eqb_eq in E1, E2. congruence.
      * apply String.eqb_neq in E2. exfalso. now apply (TN c2).
      * apply String.eqb_neq in E1. exfalso. now apply (TN c1).
      * now apply R2.
    + intros c HC. rewrite T. destruct (String.eqb c v) eqn:E.
      * apply String.eqb_eq in E. subst c. destruct (in_dec string_dec k cols) as [HI|HI]; [left; now apply KC|].
        right. split; auto. left; auto.
      * destruct (R3 c HC) as [E'|[E' E'']]; auto. right. split; auto. right; auto.
  - split; auto. intros c HC. destruct (R3 c HC) as [E'|[E' E'']]; auto. right. split; auto. right; auto.
Qed.
Lemma rinv_init : forall cols, rinv cols [] (map (fun c => (c, c)) cols) [].
Proof.
  intros cols. assert (T : forall c, target (map (fun c => (c, c)) cols) c = c).
  { intros c. unfold target. destruct (dget c _) eqn:E; auto. apply dget_In in E. apply in_map_iff in E. destruct E as (x & E & _). congruence. }
  split.
  - intros c. rewrite dmem_true. unfold dkeys. rewrite map_map. simpl. rewrite map_id. tauto.
  - intros c1 c2 _ _. now rewrite !T.
  - intros c _. left. apply T.
Qed.
Lemma rinv_fold : forall cols cm done nm inv nm' inv', rinv cols done nm inv -> NoDup (dkeys cm) ->
  (forall k, In k (dkeys cm) -> ~ In k done) ->
  fold_res (remap_step cols) (nm, inv) cm = Ok (nm', inv') ->
  rinv cols (rev (dkeys cm) ++ done) nm' inv'.
Proof.
  induction cm as [|[k v] cm IH]; intros done nm inv nm' inv' R ND HD H.
  - simpl in H. inversion H; subst; auto.
  - change (match remap_step cols (nm, inv) (k, v) with Ok s' => fold_res (remap_step cols) s' cm | Err e => Err e end = Ok (nm', inv')) in H.
    destruct (remap_step cols (nm, inv) (k, v)) as [[nm1 inv1]|] eqn:E; [|discriminate].
    inversion ND as [|? ? N1 N2]; subst. simpl dkeys. simpl rev. rewrite <- app_assoc. simpl.
    apply (IH (k :: done) nm1 inv1); auto.
    + eapply rinv_step; eauto. apply HD. left; auto.
    + intros k' HK [->|HI]; [auto|]. apply (HD k'); auto. right; auto.
Qed.
Lemma NoDup_map_inj : forall A B (g : A -> B) l, NoDup l -> (forall x y, In x l -> In y l -> g x = g y -> x = y) -> NoDup (map g l).
Proof.
  induction l as [|a l IH]; intros ND HI; simpl; constructor; inversion ND; subst.
  - intros H. apply in_map_iff in H. destruct H as (x & E & H). apply H1. rewrite <- (HI x a); auto; [right|left]; auto.
  - apply IH; auto. intros; apply HI; auto; right; auto.
Qed.
Lemma remap_ok : forall cm f f' inv, frame_ok f -> (forall d, cm = Some d -> NoDup (dkeys d)) -> remap cm f = Ok (f', inv) ->
  frame_ok f' /\ f_labels f' = f_labels f /\
  exists nm, f_cols f' = rename_cols nm (f_cols f) /\ rinv (columns f) (match cm with Some d => rev (dkeys d) | None => [] end) nm inv.
Proof.
  intros cm f f' inv [F1 F2] HC H.
  assert (X : exists nm, f' = mkFrame (f_labels f) (rename_cols nm (f_cols f)) /\ rinv (columns f) (match cm with Some d => rev (dkeys d) | None => [] end) nm inv).
  { unfold remap in H. destruct cm as [cm|].
    - destruct (fold_res _ _ cm) as [[nm1 inv1]|] eqn:E; [|discriminate]. simpl in H. injection H as <- <-. exists nm1. split; auto.
      rewrite <- (app_nil_r (rev (dkeys cm))). apply (rinv_fold _ cm [] (map (fun c => (c, c)) (columns f)) [] nm1 inv1); auto using rinv_init.
    - injection H as <- <-. eexists. split; [reflexivity|]. apply rinv_init. }
  destruct X as (nm & -> & R). split; [|split; [reflexivity|exists nm; split; [reflexivity|exact R]]].
  split.
  - unfold columns. cbn [f_cols]. rewrite rename_keys. apply NoDup_map_inj; auto. intros. eapply ri_inj; eauto.
  - unfold nrows. simpl. unfold rename_cols. rewrite Forall_map. exact F2.
Qed.

(** *** The invariant *)
Record tinv (o : obstable) : Prop := {
  ti_frame : frame_ok (ob_frame o);
  ti_req : forall c, In c required -> In c (columns (ob_frame o));
  ti_tree : ob_tree o = build_tree (ob_frame o)
}.
Lemma dset_cols_Forall : forall (P : string * list cell -> Prop) k v d, Forall P d -> P (k, v) -> Forall P (dset k v d).
Proof.
  induction d as [|[k' v'] d IH]; intros HF HP; simpl; auto. inversion HF; subst.
  destruct (String.eqb k k') eqn:E; constructor; auto. apply String.eqb_eq in E. now subst.
Qed.
Lemma num_col_dset : forall l name name' v d, name <> name' ->
  num_col name (mkFrame l (dset name' v d)) = num_col name (mkFrame l d).
Proof. intros. unfold num_col. simpl. now rewrite dget_dset_other. Qed.
Lemma add_column_inv : forall o name v ow o', tinv o -> name <> "ra"%string -> name <> "dec"%string ->
  add_column o name v ow = Ok o' -> tinv o'.
Proof.
  intros o name v ow o' [[F1 F2] R T] N1 N2 H. unfold add_column in H.
  destruct (dmem name (f_cols (ob_frame o)) && negb ow)%bool; [discriminate|].
  set (vals := match v with ColScalar c => _ | ColList l => l end) in *.
  destruct (length vals =? nrows (ob_frame o))%nat eqn:E; [|discriminate]. apply Nat.eqb_eq in E. injection H as <-. split; simpl.
  - split; [apply NoDup_dset; auto|]. apply dset_cols_Forall; auto.
  - intros c HC. unfold columns. simpl. apply In_dkeys_dset. right. now apply R.
  - rewrite T. unfold build_tree. destruct (ob_frame o) as [lb cs]. simpl. rewrite !num_col_dset by auto. reflexivity.
Qed.
Lemma required_never_missing : forall o name, tinv o -> In name required -> dmem name (f_cols (ob_frame o)) = true.
Proof. intros o name T H. apply dmem_true. now apply (ti_req o T). Qed.
Lemma assign_constant_inv : forall o name c b o', tinv o -> assign_constant o name c = Ok (b, o') ->
  tinv o' /\ (o' = o \/ exists v, name <> "ra"%string /\ name <> "dec"%string /\ add_column o name (ColList v) false = Ok o').
Proof.
  intros o name c b o' T H.
  assert (N : dmem name (f_cols (ob_frame o)) = false -> name <> "ra"%string /\ name <> "dec"%string).
  { intros D. split; intros ->; rewrite required_never_missing in D; try discriminate; auto; simpl; auto. }
  unfold assign_constant in H. destruct (dmem name (f_cols (ob_frame o))) eqn:E; [injection H as _ <-; auto|].
  destruct (N eq_refl) as [N1 N2]. cbv zeta in H.
  assert (G : forall m, bind (fold_res (fun vals fil => match dget fil m with
        | None => Err ValueError
        | Some v => if (c && Rleb v 0)%bool then Err ValueError else Ok (set_where fil v (filter_cells (ob_frame o)) vals)
        end) (repeat 0 (nrows (ob_frame o))) (ob_filters o)) (fun vals =>
      bind (add_column o name (ColList (map CNum vals)) false) (fun o' => Ok (true, o'))) = Ok (b, o') ->
      tinv o' /\ (o' = o \/ exists v, name <> "ra"%string /\ name <> "dec"%string /\ add_column o name (ColList v) false = Ok o')).
  { intros m HM. match type of HM with bind ?X _ = _ => destruct X as [vals|] end; [|discriminate]. cbn [bind] in HM.
    destruct (add_column o name (ColList (map CNum vals)) false) as [o1|] eqn:EA; [|discriminate]. cbn [bind] in HM. injection HM as _ <-.
    split; [eapply add_column_inv; eauto|]. right. eauto. }
  destruct (dget name (ob_values o)) as [[| | |]|].
  - injection H as _ <-. auto.
  - eapply G; eauto.
  - eapply G; eauto.
  - destruct (ob_filters o) eqn:EF; [|discriminate]. rewrite <- EF in H. apply (G []). rewrite EF in *. exact H.
  - injection H as _ <-. auto.
Qed.
Lemma mask_list_length : forall A B m (l : list A) (l' : list B), length l = length l' -> length (mask_list m l) = length (mask_list m l').
Proof. induction m as [|[] m IH]; intros [|a l] [|b l'] H; simpl in *; auto; discriminate || (try f_equal; apply IH; lia). Qed.
Lemma dkeys_mask : forall m (d : dict (list cell)), dkeys (map (fun kc => (fst kc, mask_list m (snd kc))) d) = dkeys d.
Proof. intros. unfold dkeys. now rewrite map_map. Qed.
Lemma mask_frame_ok : forall m f, frame_ok f -> frame_ok (mask_frame m f).
Proof.
  intros m f [F1 F2]. split.
  - unfold columns, mask_frame. cbn [f_cols]. rewrite dkeys_mask. exact F1.
  - unfold nrows, mask_frame. cbn [f_cols f_labels]. rewrite Forall_map. eapply Forall_impl; [|exact F2]. intros [k c] H. simpl in *.
    now apply mask_list_length.
Qed.
Lemma filter_rows_inv : forall o r o', tinv o -> filter_rows o r = Ok o' -> tinv o' /\
  exists m, length m = nrows (ob_frame o) /\ ob_frame o' = mask_frame m (ob_frame o) /\
    match r with RMask m' => m = m' | RIndex l => l <> [] /\ (forall i, In i l -> (i < nrows (ob_frame o))%nat) /\ m = map (fun i => existsb (Nat.eqb i) l) (seq 0 (nrows (ob_frame o))) end.
Proof.
  intros o r o' [F R T] H. unfold filter_rows in H. cbv zeta in H.
  assert (G : forall m, tinv (mkObs (mask_frame m (ob_frame o)) (ob_inv o) (ob_values o) (ob_filters o) (build_tree (mask_frame m (ob_frame o))) (ob_footprint o))).
  { intros m. split; simpl; auto; [now apply mask_frame_ok|]. intros c HC. unfold columns, mask_frame. cbn [f_cols]. rewrite dkeys_mask. now apply R. }
  destruct r as [m|l].
  - destruct (length m =? nrows (ob_frame o))%nat eqn:E; [|discriminate]. apply Nat.eqb_eq in E. injection H as <-. split; auto. exists m. auto.
  - unfold index_mask in H. destruct l as [|i0 l0] eqn:EL; [discriminate|]. rewrite <- EL in *.
    destruct (forallb _ l) eqn:E; [|discriminate]. cbn [bind] in H. injection H as <-. split; auto. eexists. split; [|split; [reflexivity|]].
    + now rewrite map_length, seq_length.
    + split; [rewrite EL; congruence|]. split; auto. intros i Hi. rewrite forallb_forall in E. apply Nat.ltb_lt. auto.
Qed.
Lemma make_inv_obs : forall f cm meta kw fp o, frame_ok f -> (forall d, cm = Some d -> NoDup (dkeys d)) ->
  ob_make f cm meta kw fp = Ok o -> tinv o.
Proof.
  intros f cm meta kw fp o F HC H. unfold ob_make in H. destruct (remap cm f) as [[f' inv]|] eqn:E; [|discriminate]. cbn [bind] in H.
  destruct (forallb _ required) eqn:ER; [|discriminate]. injection H as <-. destruct (remap_ok _ _ _ _ F HC E) as (F' & _).
  split; simpl; auto. intros c Hc. rewrite forallb_forall in ER. apply smem_In. now apply ER.
Qed.
Lemma tbl_inv : forall o, tbl o -> tinv o.
Proof.
  induction 1.
  - eapply make_inv_obs; eauto.
  - eapply add_column_inv; eauto.
  - eapply assign_constant_inv; eauto.
  - eapply filter_rows_inv; eauto.
Qed.

(** ** C34 *)
(** Row [i] of a column. *)
Definition cell_at (o : obstable) (name : string) (i : nat) : option cell :=
  match dget name (f_cols (ob_frame o)) with Some c => nth_error c i | None => None end.
Definition num_at (o : obstable) (name : string) (i : nat) : option R := option_map num_of (cell_at o name i).
(** What a search for (ra, dec) must return: the rows within the radius and the time bounds, and inside the
    detector footprint if there is one. *)
Definition matches (o : obstable) (ra dec r : R) (lo hi : option R) (i : nat) : Prop :=
  exists ra' dec' t, num_at o "ra" i = Some ra' /\ num_at o "dec" i = Some dec' /\ num_at o "time" i = Some t /\
    separation ra' dec' ra dec <= r /\
    (forall a, lo = Some a -> a <= t) /\ (forall b, hi = Some b -> t <= b) /\
    (forall fp, ob_footprint o = Some fp -> fp (ra, dec) (ra', dec') (num_at o "rotation" i) = true).
(** The bound that applies to query [k]. *)
Definition bound_of (t : targ) (k : nat) : option R :=
  match t with TNone => None | TScalar r => Some r | TArray l => nth_error l k end.
(** The radius in force. *)
Definition radius_of (o : obstable) (radius : option R) : option R :=
  match radius with
  | Some r => Some r
  | None => match dget "radius" (ob_values o) with Some (SNum r) => Some r | _ => None end
  end.

Lemma num_col_nth : forall o name i, nth_error (num_col name (ob_frame o)) i = num_at o name i.
Proof.
  intros. unfold num_col, num_at, cell_at. destruct (dget name (f_cols (ob_frame o))); [apply nth_error_map|now destruct i].
Qed.
Lemma num_at_Some : forall o name i, tinv o -> In name (columns (ob_frame o)) -> (i < nrows (ob_frame o))%nat -> exists v, num_at o name i = Some v.
Proof.
  intros o name i [[F1 F2] _ _] H L. unfold num_at, cell_at. apply dget_keys in H. destruct (dget name (f_cols (ob_frame o))) as [c|] eqn:E; [|congruence].
  rewrite Forall_forall in F2. pose proof (F2 _ (dget_In _ _ _ _ E)) as HL. simpl in HL.
  destruct (nth_error c i) eqn:EN; [simpl; eauto|]. apply nth_error_None in EN. lia.
Qed.
Lemma num_at_lt : forall o name i v, tinv o -> num_at o name i = Some v -> (i < nrows (ob_frame o))%nat.
Proof.
  intros o name i v [[F1 F2] _ _] H. unfold num_at, cell_at in H. destruct (dget name (f_cols (ob_frame o))) as [c|] eqn:E; [|discriminate].
  rewrite Forall_forall in F2. pose proof (F2 _ (dget_In _ _ _ _ E)) as HL. simpl in HL. rewrite <- HL. apply nth_error_Some.
  destruct (nth_error c i); [congruence|discriminate].
Qed.
Lemma nth_error_combine : forall A B (a : list A) (b : list B) i,
  nth_error (combine a b) i = match nth_error a i, nth_error b i with Some x, Some y => Some (x, y) | _, _ => None end.
Proof.
  induction a as [|x a IH]; intros [|y b] [|i]; simpl; auto. now destruct (nth_error a i).
Qed.
Lemma tree_nth : forall o i p, tinv o -> nth_error (ob_tree o) i = Some p <->
  exists ra dec, num_at o "ra" i = Some ra /\ num_at o "dec" i = Some dec /\ p = cart ra dec.
Proof.
  intros o i p T. rewrite (ti_tree o T). unfold build_tree. rewrite nth_error_map, nth_error_combine, !num_col_nth.
  destruct (num_at o "ra" i) as [ra|]; [destruct (num_at o "dec" i) as [dec|]|]; simpl; split; intros H; try discriminate;
    try (destruct H as (a & b & H1 & H2 & H3); congruence).
  inversion H. eauto.
Qed.
Lemma in_time_spec : forall lo hi t, in_time lo hi t = true <-> (forall a, lo = Some a -> a <= t) /\ (forall b, hi = Some b -> t <= b).
Proof.
  intros lo hi t. unfold in_time. rewrite andb_true_iff.
  destruct lo as [a|], hi as [b|]; rewrite ?Rleb_true; split; intros [H1 H2]; (split; [intros x E; inversion E; subst; auto|intros x E; inversion E; subst; auto]) || (split; auto).
Qed.
Lemma search_one_spec : forall ball o ra dec r lo hi i, ball_spec ball -> tinv o -> 0 <= r <= 180 ->
  (In i (search_one ball o ra dec r lo hi) <-> matches o ra dec r lo hi i) /\ NoDup (search_one ball o ra dec r lo hi).
Proof.
  intros ball o ra dec r lo hi i HB T HR. unfold search_one.
  destruct (HB (ob_tree o) (cart ra dec) (2 * sin (1 / 2 * radians r))) as [ND HI].
  set (b := ball _ _ _) in *.
  assert (I1 : In i b <-> exists ra' dec', num_at o "ra" i = Some ra' /\ num_at o "dec" i = Some dec' /\ separation ra' dec' ra dec <= r).
  { rewrite HI. split.
    - intros (p & H1 & H2). apply tree_nth in H1; auto. destruct H1 as (ra' & dec' & A & B & ->). exists ra', dec'.
      split; auto. split; auto. now apply C34_chord_is_angle.
    - intros (ra' & dec' & A & B & C). exists (cart ra' dec'). split; [apply tree_nth; eauto 10|]. now apply C34_chord_is_angle. }
  assert (NTH : forall name v, num_at o name i = Some v -> nth i (num_col name (ob_frame o)) 0 = v).
  { intros name v H. rewrite <- num_col_nth in H. now apply nth_error_nth. }
  assert (I2 : In i (filter (fun i => in_time lo hi (nth i (num_col "time" (ob_frame o)) 0)) b) <->
     exists ra' dec' t, num_at o "ra" i = Some ra' /\ num_at o "dec" i = Some dec' /\ num_at o "time" i = Some t /\
       separation ra' dec' ra dec <= r /\ (forall a, lo = Some a -> a <= t) /\ (forall b, hi = Some b -> t <= b)).
  { rewrite filter_In, I1, in_time_spec. split.
    - intros ((ra' & dec' & A & B & C) & D1 & D2). pose proof (num_at_lt _ _ _ _ T A) as L.
      destruct (num_at_Some o "time" i T (ti_req o T _ ltac:(simpl; auto)) L) as (t & ET). rewrite (NTH _ _ ET) in *. exists ra', dec', t. auto 10.
    - intros (ra' & dec' & t & A & B & ET & C & D1 & D2). rewrite (NTH _ _ ET). split; eauto 10. }
  destruct (ob_footprint o) as [fp|] eqn:EF.
  - split; [|repeat apply NoDup_filter; auto]. rewrite filter_In, I2. unfold matches. rewrite EF.
    assert (ER : rotation_of (ob_frame o) i = num_at o "rotation" i).
    { unfold rotation_of, num_at, cell_at. destruct (dget "rotation" (f_cols (ob_frame o))); auto. }
    rewrite ER. split.
    + intros ((ra' & dec' & t & A & B & ET & C & D1 & D2) & H). rewrite (NTH _ _ A), (NTH _ _ B) in H. exists ra', dec', t.
      do 6 (split; auto). intros fp' E. inversion E; subst; auto.
    + intros (ra' & dec' & t & A & B & ET & C & D1 & D2 & H). split; [exists ra', dec', t; auto 10|].
      rewrite (NTH _ _ A), (NTH _ _ B). auto.
  - split; [|apply NoDup_filter; auto]. rewrite I2. unfold matches. rewrite EF. split.
    + intros (ra' & dec' & t & A & B & ET & C & D1 & D2). exists ra', dec', t. do 6 (split; auto). discriminate.
    + intros (ra' & dec' & t & A & B & ET & C & D1 & D2 & H). exists ra', dec', t. auto 10.
Qed.
Lemma tlist_spec : forall n t l, tlist n t = Ok l -> length l = n /\ forall k, (k < n)%nat -> nth_error l k = Some (bound_of t k).
Proof.
  intros n t l H. destruct t as [|r|a]; simpl in *.
  - injection H as <-. split; [apply repeat_length|]. intros k Hk. revert k Hk. induction n; intros [|k] Hk; simpl; auto; try lia. apply IHn; lia.
  - destruct (n =? 1)%nat eqn:E; [|discriminate]. apply Nat.eqb_eq in E. injection H as <-. subst. split; auto. intros k Hk. destruct k; auto; lia.
  - destruct (length a =? n)%nat eqn:E; [|discriminate]. apply Nat.eqb_eq in E. injection H as <-. subst. split; [apply map_length|].
    intros k Hk. rewrite nth_error_map. destruct (nth_error a k) eqn:EN; auto. apply nth_error_None in EN. lia.
Qed.
Lemma radius_eq : forall o radius r, radius_of o radius = Some r -> match radius with Some r => Ok r | None => preset_radius o end = Ok r.
Proof.
  intros o [r'|] r H; simpl in *; [congruence|]. unfold preset_radius. destruct (dget "radius" (ob_values o)) as [[]|]; congruence.
Qed.
Lemma range_many : forall ball o ra dec radius tmin tmax res r, ball_spec ball -> tinv o ->
  radius_of o radius = Some r -> 0 <= r <= 180 ->
  range_search ball o ra dec radius tmin tmax = Ok res ->
  exists l, (res = Many l /\ (is_scalar ra && is_scalar dec)%bool = false \/ (exists a, res = One a /\ l = [a] /\ (is_scalar ra && is_scalar dec)%bool = true)) /\
    length l = length (qlist ra) /\ length (qlist dec) = length (qlist ra) /\
    forall k a d, nth_error (qlist ra) k = Some a -> nth_error (qlist dec) k = Some d ->
      exists lk, nth_error l k = Some lk /\ NoDup lk /\
        forall i, In i lk <-> matches o a d r (bound_of tmin k) (bound_of tmax k) i.
Proof.
  intros ball o ra dec radius tmin tmax res r HB HT ER HR H. unfold range_search in H. rewrite (radius_eq _ _ _ ER) in H. cbn [bind] in H. cbv zeta in H.
  destruct (length (qlist ra) =? length (qlist dec))%nat eqn:EL; [|discriminate]. apply Nat.eqb_eq in EL. cbn [negb] in H.
  destruct (tlist (length (qlist ra)) tmin) as [lo|] eqn:E1; [|discriminate]. cbn [bind] in H.
  destruct (tlist (length (qlist ra)) tmax) as [hi|] eqn:E2; [|discriminate]. cbn [bind] in H.
  destruct (tlist_spec _ _ _ E1) as [L1 N1]. destruct (tlist_spec _ _ _ E2) as [L2 N2].
  set (l := map _ _) in H. exists l.
  assert (LL : length l = length (qlist ra)).
  { unfold l. rewrite map_length, !combine_length. lia. }
  assert (SPEC : forall k a d, nth_error (qlist ra) k = Some a -> nth_error (qlist dec) k = Some d ->
      exists lk, nth_error l k = Some lk /\ NoDup lk /\ forall i, In i lk <-> matches o a d r (bound_of tmin k) (bound_of tmax k) i).
  { intros k a d Ha Hd. assert (LK : (k < length (qlist ra))%nat) by (apply nth_error_Some; congruence).
    exists (search_one ball o a d r (bound_of tmin k) (bound_of tmax k)). split.
    - unfold l. rewrite nth_error_map, !nth_error_combine, Ha, Hd, N1, N2 by auto. reflexivity.
    - split; [apply (search_one_spec ball o a d r _ _ 0%nat HB HT HR)|]. intros i. now apply search_one_spec. }
  split; [|auto]. destruct (is_scalar ra && is_scalar dec)%bool eqn:ES.
  - apply andb_prop in ES. destruct ES as [S1 S2]. destruct ra as [a|]; [|discriminate]. destruct l as [|x l']; [simpl in LL; discriminate|].
    injection H as <-. right. exists x. split; auto. split; auto. f_equal. destruct l'; auto. simpl in LL. discriminate.
  - injection H as <-. left. auto.
Qed.
(** For arrays of queries: the k-th entry lists, without repetition, exactly the matching rows of query k. *)
Theorem C34_exact : forall ball o ras decs radius tmin tmax res r, ball_spec ball -> tbl o ->
  radius_of o radius = Some r -> 0 <= r <= 180 ->
  range_search ball o (QArray ras) (QArray decs) radius tmin tmax = Ok res ->
  exists l, res = Many l /\ length l = length ras /\ length decs = length ras /\
    forall k ra dec, nth_error ras k = Some ra -> nth_error decs k = Some dec ->
      exists lk, nth_error l k = Some lk /\ NoDup lk /\
        forall i, In i lk <-> matches o ra dec r (bound_of tmin k) (bound_of tmax k) i.
Proof.
  intros ball o ras decs radius tmin tmax res r HB HT ER HR H.
  destruct (range_many _ _ _ _ _ _ _ _ _ HB (tbl_inv _ HT) ER HR H) as (l & [[E _]|(a & _ & _ & E)] & L1 & L2 & S); [|discriminate]. exists l. auto.
Qed.
Theorem C34_exact_scalar : forall ball o ra dec radius tmin tmax res r, ball_spec ball -> tbl o ->
  radius_of o radius = Some r -> 0 <= r <= 180 ->
  range_search ball o (QScalar ra) (QScalar dec) radius tmin tmax = Ok res ->
  exists l, res = One l /\ NoDup l /\ forall i, In i l <-> matches o ra dec r (bound_of tmin 0) (bound_of tmax 0) i.
Proof.
  intros ball o ra dec radius tmin tmax res r HB HT ER HR H.
  destruct (range_many _ _ _ _ _ _ _ _ _ HB (tbl_inv _ HT) ER HR H) as (l & [[E E']|(a & E & EL & _)] & L1 & L2 & S); [discriminate|].
  exists a. split; auto. destruct (S 0%nat ra dec eq_refl eq_refl) as (lk & E2 & S2). subst l. simpl in E2. injection E2 as <-. auto.
Qed.
Lemma exact_scalar_inv : forall ball o ra dec radius tmin tmax res r, ball_spec ball -> tinv o ->
  radius_of o radius = Some r -> 0 <= r <= 180 ->
  range_search ball o (QScalar ra) (QScalar dec) radius tmin tmax = Ok res ->
  exists l, res = One l /\ NoDup l /\ forall i, In i l <-> matches o ra dec r (bound_of tmin 0) (bound_of tmax 0) i.
Proof.
  intros ball o ra dec radius tmin tmax res r HB HT ER HR H.
  destruct (range_many _ _ _ _ _ _ _ _ _ HB HT ER HR H) as (l & [[E E']|(a & E & EL & _)] & L1 & L2 & SP); [discriminate|].
  exists a. split; auto. destruct (SP 0%nat ra dec eq_refl eq_refl) as (lk & E2 & S2). subst l. simpl in E2. injection E2 as <-. auto.
Qed.
(** The search is defined whenever the lengths fit and a radius is known. *)
Theorem C34_defined : forall ball o ras decs radius tmin tmax r, radius_of o radius = Some r -> length decs = length ras ->
  (forall x, tmin <> TScalar x) -> (forall x, tmax <> TScalar x) ->
  (forall l, tmin = TArray l -> length l = length ras) -> (forall l, tmax = TArray l -> length l = length ras) ->
  exists res, range_search ball o (QArray ras) (QArray decs) radius tmin tmax = Ok res.
Proof.
  intros ball o ras decs radius tmin tmax r ER EL S1 S2 A1 A2. unfold range_search. rewrite (radius_eq _ _ _ ER). cbn [bind qlist]. cbv zeta.
  rewrite EL, Nat.eqb_refl. cbn [negb].
  assert (X : forall t, (forall x, t <> TScalar x) -> (forall l, t = TArray l -> length l = length ras) -> exists l, tlist (length ras) t = Ok l).
  { intros [|x|l] H1 H2; simpl; eauto; [now destruct (H1 x)|]. rewrite (H2 l eq_refl), Nat.eqb_refl. eauto. }
  destruct (X tmin S1 A1) as (lo & ->). destruct (X tmax S2 A2) as (hi & ->). cbn [bind is_scalar andb]. eauto.
Qed.
Theorem C34_no_radius : forall ball o ra dec tmin tmax, dget "radius" (ob_values o) = Some SNone ->
  range_search ball o ra dec None tmin tmax = Err ValueError.
Proof. intros. unfold range_search, preset_radius. now rewrite H. Qed.
Theorem C34_length_mismatch : forall ball o ras decs radius tmin tmax r, radius_of o radius = Some r -> length ras <> length decs ->
  range_search ball o (QArray ras) (QArray decs) radius tmin tmax = Err ValueError.
Proof.
  intros. unfold range_search. rewrite (radius_eq _ _ _ H). cbn [bind qlist]. cbv zeta. apply Nat.eqb_neq in H0. now rewrite H0.
Qed.
(** Finding: a scalar time bound, documented as allowed, is refused for two or more queries. *)
Theorem C34_scalar_bound_refuted : forall ball o ras decs r t tmax, (2 <= length ras)%nat -> length decs = length ras ->
  range_search ball o (QArray ras) (QArray decs) (Some r) (TScalar t) tmax = Err ValueError.
Proof.
  intros ball o ras decs r t tmax L E. unfold range_search. cbn [bind qlist]. cbv zeta. rewrite E, Nat.eqb_refl. cbn [negb tlist].
  replace (length ras =? 1)%nat with false by (symmetry; apply Nat.eqb_neq; lia). reflexivity.
Qed.

(** *** Small tables for the counterexamples *)
Definition one_row (ra dec t : R) : frame := mkFrame [0%nat] [("ra", [CNum ra]); ("dec", [CNum dec]); ("time", [CNum t])]%string.
Lemma one_row_ok : forall ra dec t, frame_ok (one_row ra dec t).
Proof.
  intros. split; [|repeat constructor]. unfold columns, one_row. simpl. repeat constructor; simpl; intuition discriminate.
Qed.
Definition one_obs (ra dec t : R) : obstable :=
  mkObs (one_row ra dec t) [] default_values [] [cart ra dec] None.
Lemma one_obs_make : forall ra dec t, ob_make (one_row ra dec t) None [] [] None = Ok (one_obs ra dec t).
Proof. reflexivity. Qed.
Lemma one_obs_tbl : forall ra dec t, tbl (one_obs ra dec t).
Proof. intros. apply (tbl_make _ _ _ _ _ _ (one_row_ok ra dec t)) with (2 := one_obs_make ra dec t). discriminate. Qed.
Lemma sep_0_90 : separation 0 0 90 0 = 90.
Proof.
  unfold separation, cos_sep, radians. replace (0 * PI / 180) with 0 by field. rewrite sin_0, cos_0.
  replace (0 - 90 * PI / 180) with (- (PI / 2)) by field. rewrite cos_neg, cos_PI2.
  replace (0 * 0 + 1 * 1 * 0) with 0 by ring. rewrite acos_0. field. apply PI_neq0.
Qed.
(** Radii beyond 180 degrees cover the whole sphere, but the chord length shrinks again: a radius of 360
    degrees finds nothing. *)
Theorem C34_large_radius_refuted : exists o, tbl o /\ forall ball, ball_spec ball ->
  separation 0 0 90 0 <= 360 /\ num_at o "ra" 0 = Some 0 /\ num_at o "dec" 0 = Some 0 /\
  exists l, range_search ball o (QScalar 90) (QScalar 0) (Some 360) TNone TNone = Ok (One l) /\ ~ In 0%nat l.
Proof.
  exists (one_obs 0 0 0). split; [apply one_obs_tbl|]. intros ball HB. rewrite sep_0_90. split; [lra|]. split; auto. split; auto.
  eexists. split; [reflexivity|]. unfold search_one. cbn [one_obs ob_footprint ob_tree]. intros H. apply filter_In in H. destruct H as [H _].
  apply HB in H. destruct H as (p & E & D). simpl in E. injection E as <-.
  assert (Z : 2 * sin (1 / 2 * radians 360) = 0).
  { unfold radians. replace (1 / 2 * (360 * PI / 180)) with PI by field. rewrite sin_PI. ring. }
  rewrite Z in D.
  assert (D' : dist3 (cart 0 0) (cart 90 0) <= 2 * sin (1 / 2 * radians 0)).
  { replace (1 / 2 * radians 0) with 0 by (unfold radians; field). rewrite sin_0. cbn [fst snd] in D. lra. }
  apply C34_chord_is_angle in D'; [|lra]. rewrite sep_0_90 in D'. lra.
Qed.
(** Overwriting the position columns leaves the search structure at the old positions. *)
Theorem C34_stale_positions_refuted : exists o o', tbl o /\ add_column o "ra" (ColList [CNum 90]) true = Ok o' /\
  num_at o' "ra" 0 = Some 90 /\ num_at o' "dec" 0 = Some 0 /\
  forall ball, ball_spec ball ->
  exists l, range_search ball o' (QScalar 90) (QScalar 0) (Some 1) TNone TNone = Ok (One l) /\ ~ In 0%nat l.
Proof.
  exists (one_obs 0 0 0). eexists. split; [apply one_obs_tbl|]. split; [reflexivity|]. split; [reflexivity|]. split; [reflexivity|]. intros ball HB.
  eexists. split; [reflexivity|]. unfold search_one. cbn [ob_footprint ob_tree]. intros H. apply filter_In in H. destruct H as [H _].
  apply HB in H. destruct H as (p & E & D). simpl in E. injection E as <-. change (dist3 (cart 0 0) (cart 90 0) <= 2 * sin (1 / 2 * radians 1)) in D.
  apply C34_chord_is_angle in D; [|lra]. rewrite sep_0_90 in D. lra.
Qed.
Lemma sep_same : forall ra dec, separation ra dec ra dec = 0.
Proof.
  intros. unfold separation, cos_sep. replace (radians ra - radians ra) with 0 by ring. rewrite cos_0.
  replace (sin (radians dec) * sin (radians dec) + cos (radians dec) * cos (radians dec) * 1) with 1 by (pose proof (sin2_cos2 (radians dec)) as H; unfold Rsqr in H; lra).
  rewrite acos_1. field. apply PI_neq0.
Qed.
Example C34_applies : exists o l, tbl o /\ range_search ref_ball o (QArray [10; 20]) (QArray [5; 5]) (Some 1) (TArray [0; 0]) TNone = Ok (Many l) /\
  exists l0 l1, l = [l0; l1] /\ In 0%nat l0.
Proof.
  exists (one_obs 10 5 3). eexists. split; [apply one_obs_tbl|]. split; [reflexivity|]. do 2 eexists. split; [reflexivity|].
  apply search_one_spec; [apply ref_ball_spec|apply tbl_inv, one_obs_tbl|lra|].
  exists 10, 5, 3. split; auto. split; auto. split; auto. rewrite sep_same. split; [lra|]. split; [intros a E; inversion E; subst; lra|].
  split; intros ? E; discriminate.
Qed.

(** ** C35 *)
Lemma nonempty_true : forall l, nonempty l = true <-> exists i, In i l.
Proof. intros [|a l]; unfold nonempty; simpl; split; intros H; auto; [discriminate|destruct H as (? & [])|eauto]. Qed.
Theorem C35_arrays : forall ball o ras decs radius tmin tmax r, ball_spec ball -> tbl o ->
  radius_of o radius = Some r -> 0 <= r <= 180 ->
  forall s, is_observed ball o (QArray ras) (QArray decs) radius tmin tmax = Ok s ->
  exists bs, s = SeenMany bs /\ length bs = length ras /\
    forall k ra dec, nth_error ras k = Some ra -> nth_error decs k = Some dec ->
      exists b, nth_error bs k = Some b /\ (b = true <-> exists i, matches o ra dec r (bound_of tmin k) (bound_of tmax k) i).
Proof.
  intros ball o ras decs radius tmin tmax r HB HT ER HR s H. unfold is_observed in H.
  destruct (range_search ball o (QArray ras) (QArray decs) radius tmin tmax) as [res|] eqn:E; [|discriminate]. cbn [bind is_scalar] in H.
  destruct (C34_exact _ _ _ _ _ _ _ _ _ HB HT ER HR E) as (l & -> & L1 & L2 & S). injection H as <-.
  eexists. split; [reflexivity|]. split; [now rewrite map_length|]. intros k ra dec Ha Hd.
  destruct (S k ra dec Ha Hd) as (lk & E1 & _ & S2). exists (nonempty lk). rewrite nth_error_map, E1. split; auto.
  rewrite nonempty_true. split; intros (i & Hi); exists i; now apply S2.
Qed.
Theorem C35_scalar : forall ball o ra dec radius tmin tmax r, ball_spec ball -> tbl o ->
  radius_of o radius = Some r -> 0 <= r <= 180 ->
  forall s, is_observed ball o (QScalar ra) (QScalar dec) radius tmin tmax = Ok s ->
  exists b, s = SeenOne b /\ (b = true <-> exists i, matches o ra dec r (bound_of tmin 0) (bound_of tmax 0) i).
Proof.
  intros ball o ra dec radius tmin tmax r HB HT ER HR s H. unfold is_observed in H.
  destruct (range_search ball o (QScalar ra) (QScalar dec) radius tmin tmax) as [res|] eqn:E; [|discriminate]. cbn [bind is_scalar] in H.
  destruct (C34_exact_scalar _ _ _ _ _ _ _ _ _ HB HT ER HR E) as (l & -> & _ & S). injection H as <-.
  eexists. split; [reflexivity|]. rewrite nonempty_true. split; intros (i & Hi); exists i; now apply S.
Qed.
(** The same errors as the search. *)
Theorem C35_errors : forall ball o ra dec radius tmin tmax e,
  is_observed ball o ra dec radius tmin tmax = Err e <-> range_search ball o ra dec radius tmin tmax = Err e.
Proof.
  intros. unfold is_observed. destruct (range_search ball o ra dec radius tmin tmax) as [res|]; simpl; [|split; intros H; inversion H; reflexivity].
  split; [|discriminate]. destruct (is_scalar ra); discriminate.
Qed.
(** Finding: a scalar ra with a length-one array dec is reported as observed wherever it points. *)
Theorem C35_mixed_refuted : exists o, tbl o /\ forall ball, ball_spec ball ->
  is_observed ball o (QScalar 90) (QArray [0]) (Some 1) TNone TNone = Ok (SeenOne true) /\
  ~ (exists i, matches o 90 0 1 None None i).
Proof.
  exists (one_obs 0 0 0). split; [apply one_obs_tbl|]. intros ball HB. split; [reflexivity|].
  intros (i & ra & dec & t & A & B & _ & S & _). destruct i as [|i]; [|destruct i; discriminate].
  injection A as <-. injection B as <-. rewrite sep_0_90 in S. lra.
Qed.

(** ** C36 *)
(** The positions a mask keeps, in increasing order. *)
Definition kept (m : list bool) : list nat := filter (fun i => nth i m false) (seq 0 (length m)).
Lemma kept_cons : forall b m, kept (b :: m) = (if b then [0%nat] else []) ++ map S (kept m).
Proof.
  intros b m. unfold kept. cbn [length]. change (seq 0 (S (length m))) with (0%nat :: seq 1 (length m)).
  rewrite <- seq_shift.
  change (filter (fun i => nth i (b :: m) false) (0%nat :: map S (seq 0 (length m)))) with
    (if b then 0%nat :: filter (fun i => nth i (b :: m) false) (map S (seq 0 (length m))) else filter (fun i => nth i (b :: m) false) (map S (seq 0 (length m)))).
  assert (E : filter (fun i => nth i (b :: m) false) (map S (seq 0 (length m))) = map S (filter (fun i => nth i m false) (seq 0 (length m)))).
  { generalize (seq 0 (length m)). induction l as [|x l IH]; auto. change (filter (fun i => nth i (b :: m) false) (map S (x :: l))) with (if nth x m false then S x :: filter (fun i => nth i (b :: m) false) (map S l) else filter (fun i => nth i (b :: m) false) (map S l)).
    rewrite IH. cbn [filter]. destruct (nth x m false); reflexivity. }
  rewrite E. destruct b; reflexivity.
Qed.
Lemma mask_list_nth : forall A m (l : list A) j i, length m = length l -> nth_error (kept m) j = Some i ->
  nth_error (mask_list m l) j = nth_error l i.
Proof.
  induction m as [|b m IH]; intros [|a l] j i HL H; simpl in HL; try discriminate; [destruct j; discriminate|].
  rewrite kept_cons in H. destruct b; cbn [app] in H.
  - destruct j as [|j]; simpl in *; [injection H as <-; auto|]. rewrite nth_error_map in H.
    destruct (nth_error (kept m) j) as [i'|] eqn:E; [|discriminate]. simpl in H. injection H as <-. simpl. apply IH; auto.
  - rewrite nth_error_map in H. destruct (nth_error (kept m) j) as [i'|] eqn:E; [|discriminate]. simpl in H. injection H as <-. simpl. apply IH; auto.
Qed.
Lemma mask_list_len : forall A m (l : list A), length m = length l -> length (mask_list m l) = length (kept m).
Proof.
  induction m as [|b m IH]; intros [|a l] HL; simpl in HL; try discriminate; auto. rewrite kept_cons, app_length, map_length.
  destruct b; simpl; rewrite IH by lia; auto.
Qed.
Lemma dget_mask : forall m name (d : dict (list cell)), dget name (map (fun kc => (fst kc, mask_list m (snd kc))) d) = option_map (mask_list m) (dget name d).
Proof. induction d as [|[k c] d IH]; simpl; auto. destruct (String.eqb name k); auto. Qed.
Lemma filter_cells_at : forall o o' m, tinv o -> length m = nrows (ob_frame o) -> ob_frame o' = mask_frame m (ob_frame o) ->
  nrows (ob_frame o') = length (kept m) /\ columns (ob_frame o') = columns (ob_frame o) /\
  forall name j i, nth_error (kept m) j = Some i -> cell_at o' name j = cell_at o name i.
Proof.
  intros o o' m T L E. rewrite E. split; [|split].
  - unfold nrows, mask_frame. simpl. now apply mask_list_len.
  - unfold columns, mask_frame. simpl. apply dkeys_mask.
  - intros name j i H. unfold cell_at. rewrite E. unfold mask_frame. cbn [f_cols]. rewrite dget_mask.
    destruct (dget name (f_cols (ob_frame o))) as [c|] eqn:ED; auto. simpl. apply mask_list_nth; auto.
    destruct (ti_frame o T) as [_ F2]. rewrite Forall_forall in F2. pose proof (F2 _ (dget_In _ _ _ _ ED)) as HL. simpl in HL. congruence.
Qed.
(** Row j of the filtered table is the j-th selected row, in every column. *)
Theorem C36_mask : forall o m o', tbl o -> filter_rows o (RMask m) = Ok o' ->
  nrows (ob_frame o') = length (kept m) /\ columns (ob_frame o') = columns (ob_frame o) /\
  forall name j i, nth_error (kept m) j = Some i -> cell_at o' name j = cell_at o name i.
Proof.
  intros o m o' HT H. apply tbl_inv in HT. destruct (filter_rows_inv _ _ _ HT H) as (_ & m' & L & E & ->). now apply filter_cells_at.
Qed.
Theorem C36_mask_wrong_length : forall o m, length m <> nrows (ob_frame o) -> filter_rows o (RMask m) = Err ValueError.
Proof. intros o m H. unfold filter_rows. apply Nat.eqb_neq in H. cbv zeta. now rewrite H. Qed.
(** Index lists keep the rows whose position is listed (in table order, whatever the order of the list). *)
Theorem C36_index : forall o l, l <> [] -> (forall i, In i l -> (i < nrows (ob_frame o))%nat) ->
  filter_rows o (RIndex l) = filter_rows o (RMask (map (fun i => if in_dec Nat.eq_dec i l then true else false) (seq 0 (nrows (ob_frame o))))).
Proof.
  intros o l HN HL. unfold filter_rows. cbv zeta. rewrite map_length, seq_length, Nat.eqb_refl. unfold index_mask.
  destruct l as [|i0 l0] eqn:EL; [congruence|]. rewrite <- EL in *.
  replace (forallb (fun i => (i <? nrows (ob_frame o))%nat) l) with true by (symmetry; apply forallb_forall; intros i Hi; apply Nat.ltb_lt; auto).
  cbn [bind].
  assert (M : map (fun i => existsb (Nat.eqb i) l) (seq 0 (nrows (ob_frame o))) = map (fun i => if in_dec Nat.eq_dec i l then true else false) (seq 0 (nrows (ob_frame o)))).
  { apply map_ext. intros i. destruct (in_dec Nat.eq_dec i l) as [H|H].
    - apply existsb_exists. exists i. split; auto. apply Nat.eqb_refl.
    - apply not_true_iff_false. intros E. apply existsb_exists in E. destruct E as (x & Hx & E). apply Nat.eqb_eq in E. subst. auto. }
  now rewrite M.
Qed.
Theorem C36_index_out_of_range : forall o l i, In i l -> (nrows (ob_frame o) <= i)%nat -> filter_rows o (RIndex l) = Err IndexError.
Proof.
  intros o l i HI HL. unfold filter_rows, index_mask. cbv zeta. destruct l as [|i0 l0] eqn:EL; auto. rewrite <- EL in *.
  replace (forallb (fun i => (i <? nrows (ob_frame o))%nat) l) with false; auto. symmetry. apply not_true_iff_false. intros E.
  rewrite forallb_forall in E. specialize (E i HI). apply Nat.ltb_lt in E. lia.
Qed.
(** Searches in the filtered table find exactly the rows whose original is found. *)
Theorem C36_search : forall ball o m o' ra dec radius tmin tmax r l l', ball_spec ball -> tbl o ->
  radius_of o radius = Some r -> 0 <= r <= 180 -> filter_rows o (RMask m) = Ok o' ->
  range_search ball o (QScalar ra) (QScalar dec) radius tmin tmax = Ok (One l) ->
  range_search ball o' (QScalar ra) (QScalar dec) radius tmin tmax = Ok (One l') ->
  (forall j, In j l' -> (j < length (kept m))%nat) /\
  forall j i, nth_error (kept m) j = Some i -> (In j l' <-> In i l).
Proof.
  intros ball o m o' ra dec radius tmin tmax r l l' HB HT ER HR HF H1 H2.
  destruct (C36_mask o m o' HT HF) as (N & _ & C).
  assert (HT' : tbl o') by (eapply tbl_filter; eauto).
  assert (EV : radius_of o' radius = Some r /\ ob_footprint o' = ob_footprint o).
  { unfold filter_rows in HF. cbv zeta in HF. destruct (length m =? nrows (ob_frame o))%nat; [|discriminate]. injection HF as <-. auto. }
  destruct EV as [ER' EF].
  destruct (C34_exact_scalar _ _ _ _ _ _ _ _ _ HB HT ER HR H1) as (? & E1 & _ & S1). injection E1 as <-.
  destruct (C34_exact_scalar _ _ _ _ _ _ _ _ _ HB HT' ER' HR H2) as (? & E2 & _ & S2). injection E2 as <-.
  split.
  - intros j Hj. apply S2 in Hj. destruct Hj as (ra' & _ & _ & A & _). rewrite <- N. eapply num_at_lt; eauto. now apply tbl_inv.
  - intros j i Hji. rewrite S1, S2. unfold matches, num_at. rewrite EF, !(C _ j i Hji). tauto.
Qed.
Lemma by_label_seq : forall c s k, by_label (seq s (length c)) c (s + k) = nth_error c k.
Proof.
  induction c as [|v c IH]; intros s k; simpl; [now destruct k|]. destruct k as [|k].
  - now rewrite Nat.add_0_r, Nat.eqb_refl.
  - replace (s =? s + S k)%nat with false by (symmetry; apply Nat.eqb_neq; lia). cbn [nth_error]. rewrite <- (IH (S s) k). f_equal. lia.
Qed.
Lemma select_labels_seq : forall c ks, (forall k, In k ks -> (k < length c)%nat) ->
  exists vs, select_labels (seq 0 (length c)) c ks = Ok vs /\ Forall2 (fun k v => nth_error c k = Some v) ks vs.
Proof.
  induction ks as [|k ks IH]; intros H; [simpl; eauto|]. cbn [select_labels]. pose proof (by_label_seq c 0 k) as B. cbn [Nat.add] in B. rewrite B. clear B.
  destruct (nth_error c k) as [v|] eqn:E; [|apply nth_error_None in E; specialize (H k (or_introl eq_refl)); lia].
  destruct IH as (vs & -> & F); [intros; apply H; right; auto|]. simpl. eauto.
Qed.
(** [get_observations] on a table that still has its default row labels: every requested column holds
    the values of the rows that [range_search] returned, in the same order. *)
Theorem C36_get_observations : forall ball o ra dec radius tmin tmax r l cols, ball_spec ball -> tbl o ->
  radius_of o radius = Some r -> 0 <= r <= 180 -> f_labels (ob_frame o) = seq 0 (nrows (ob_frame o)) ->
  range_search ball o (QScalar ra) (QScalar dec) radius tmin tmax = Ok (One l) ->
  (forall c, In c cols -> In c (columns (ob_frame o))) ->
  exists d, get_observations ball o ra dec radius tmin tmax (Some cols) = Ok d /\
    forall c, In c cols -> exists vs, dget c d = Some vs /\ Forall2 (fun i v => cell_at o c i = Some v) l vs.
Proof.
  intros ball o ra dec radius tmin tmax r l cols HB HT ER HR HLB H HC. unfold get_observations. rewrite H. cbn [bind]. cbv zeta.
  destruct (C34_exact_scalar _ _ _ _ _ _ _ _ _ HB HT ER HR H) as (? & E1 & _ & S1). injection E1 as <-.
  apply tbl_inv in HT. destruct (ti_frame o HT) as [_ F2]. rewrite Forall_forall in F2.
  assert (LL : forall i, In i l -> (i < nrows (ob_frame o))%nat).
  { intros i Hi. apply S1 in Hi. destruct Hi as (ra' & _ & _ & A & _). eapply num_at_lt; eauto. }
  assert (X : forall cols acc, (forall c, In c cols -> In c (columns (ob_frame o))) ->
    exists d, fold_res (fun acc col => bind (ob_getitem o col) (fun c => bind (select_labels (f_labels (ob_frame o)) c l) (fun vs => Ok (dset col vs acc)))) acc cols = Ok d /\
    (forall c, ~ In c cols -> dget c d = dget c acc) /\
    forall c, In c cols -> exists vs, dget c d = Some vs /\ Forall2 (fun i v => cell_at o c i = Some v) l vs).
  { clear cols HC. induction cols as [|c cols IH]; intros acc HC; [simpl; exists acc; split; auto; split; [auto|tauto]|].
    assert (HI := HC c (or_introl eq_refl)). apply dget_keys in HI.
    unfold ob_getitem at 1. cbn [fold_res]. unfold ob_getitem. destruct (dget c (f_cols (ob_frame o))) as [cc|] eqn:EC; [|congruence].
    cbn [bind]. pose proof (F2 _ (dget_In _ _ _ _ EC)) as HL. simpl in HL. rewrite HLB, <- HL.
    destruct (select_labels_seq cc l) as (vs & -> & FV); [rewrite HL; auto|]. cbn [bind].
    destruct (IH (dset c vs acc)) as (d & E & D1 & D2); [intros; apply HC; right; auto|]. rewrite HLB, <- HL in E. unfold ob_getitem in E.
    exists d. split; [exact E|]. split.
    - intros c' HN. rewrite D1 by (intros X; apply HN; right; auto). apply dget_dset_other. intros ->. apply HN. left; auto.
    - intros c' [<-|HI']; [|apply D2; auto]. destruct (in_dec string_dec c cols) as [HI'|HI']; [now apply D2|].
      exists vs. split; [rewrite D1 by auto; apply dget_dset_same|]. clear - FV EC. induction FV; constructor; auto. unfold cell_at. now rewrite EC. }
  destruct (X cols [] HC) as (d & E & _ & D). eauto.
Qed.
(** Finding: after [filter_rows] the labels are no longer positions and [get_observations] fails (or
    returns other rows). *)
Definition three_rows : frame := mkFrame [0; 1; 2]%nat
  [("ra", [CNum 90; CNum 0; CNum 0]); ("dec", [CNum 0; CNum 0; CNum 0]); ("time", [CNum 1; CNum 2; CNum 3])]%string.
Lemma three_rows_ok : frame_ok three_rows.
Proof. split; [|repeat constructor]. unfold columns, three_rows. simpl. repeat constructor; simpl; intuition discriminate. Qed.
Lemma ball_found : forall ball o ra dec r lo hi l, ball_spec ball -> tbl o -> 0 <= r <= 180 ->
  (forall i, In i l <-> matches o ra dec r lo hi i) -> NoDup l -> Permutation (search_one ball o ra dec r lo hi) l.
Proof.
  intros ball o ra dec r lo hi l HB HT HR HL ND. apply NoDup_Permutation; auto.
  - apply (search_one_spec ball o ra dec r lo hi 0%nat HB (tbl_inv _ HT) HR).
  - intros i. rewrite HL. apply (search_one_spec ball o ra dec r lo hi i HB (tbl_inv _ HT) HR).
Qed.
Theorem C36_get_observations_refuted : exists o o', tbl o /\ filter_rows o (RMask [false; true; true]) = Ok o' /\
  forall ball, ball_spec ball ->
    (exists l, range_search ball o' (QScalar 0) (QScalar 0) (Some 1) TNone TNone = Ok (One l) /\ Permutation l [0; 1]%nat) /\
    get_observations ball o' 0 0 (Some 1) TNone TNone (Some ["time"%string]) = Err KeyError /\
    (* the row found by a narrower search is row 0 with time 2, but a different row is returned *)
    (exists l, range_search ball o' (QScalar 0) (QScalar 0) (Some 1) (TScalar (5 / 2)) TNone = Ok (One l) /\ l = [1%nat] /\
       cell_at o' "time" 1 = Some (CNum 3)) /\
    get_observations ball o' 0 0 (Some 1) (TScalar (5 / 2)) TNone (Some ["time"%string]) = Ok [("time"%string, [CNum 2])].
Proof.
  destruct (ob_make three_rows None [] [] None) as [o|] eqn:EO; [|discriminate].
  assert (HT : tbl o) by (apply (tbl_make _ _ _ _ _ _ three_rows_ok) with (2 := EO); discriminate).
  injection EO as EO. destruct (filter_rows o (RMask [false; true; true])) as [o'|] eqn:EF; [|subst o; discriminate].
  exists o, o'. split; auto. split; auto. assert (HT' : tbl o') by (eapply tbl_filter; eauto).
  assert (M : forall lo i, matches o' 0 0 1 lo None i <-> exists t, (i = 0%nat /\ t = 2 \/ i = 1%nat /\ t = 3) /\ forall a, lo = Some a -> a <= t).
  { subst o. injection EF as EF. subst o'. intros lo i. unfold matches. cbn. split.
    - intros (ra' & dec' & t & A & B & C & _ & L & _). destruct i as [|[|i]].
      + exists 2. cbn in C. injection C as <-. auto.
      + exists 3. cbn in C. injection C as <-. auto.
      + destruct i; discriminate.
    - intros (t & [[-> ->]|[-> ->]] & L); cbn; [exists 0, 0, 2|exists 0, 0, 3]; rewrite sep_same; (do 3 (split; [reflexivity|])); (split; [lra|]); (split; [exact L|]);
        (split; [intros ? E; discriminate|intros ? E; discriminate]). }
  intros ball HB.
  assert (P1 : Permutation (search_one ball o' 0 0 1 None None) [0; 1]%nat).
  { apply ball_found; auto; [lra| |repeat constructor; simpl; intuition lia]. intros i. rewrite M. simpl. split.
    - intros [<-|[<-|[]]]; [exists 2|exists 3]; (split; [auto|discriminate]).
    - intros (t & [[-> _]|[-> _]] & _); auto. }
  assert (P2 : search_one ball o' 0 0 1 (Some (5 / 2)) None = [1%nat]).
  { apply Permutation_length_1_inv. apply Permutation_sym. apply ball_found; auto; [lra| |repeat constructor; simpl; tauto]. intros i. rewrite M. simpl. split.
    - intros [<-|[]]. exists 3. split; auto. intros a E. inversion E; subst. lra.
    - intros (t & [[-> ->]|[-> ->]] & L); auto. specialize (L _ eq_refl). lra. }
  assert (EFR : f_labels (ob_frame o') = [1; 2]%nat /\ dget "time" (f_cols (ob_frame o')) = Some [CNum 2; CNum 3]).
  { subst o. injection EF as EF. subst o'. split; reflexivity. }
  destruct EFR as [EL EC]. split; [|split; [|split]].
  - eexists. split; [unfold range_search; cbn; reflexivity|]. exact P1.
  - unfold get_observations, range_search. cbn -[search_one]. unfold ob_getitem. rewrite EC, EL. cbn [bind].
    apply Permutation_length_2_inv in P1 || (apply Permutation_sym, Permutation_length_2_inv in P1). destruct P1 as [-> | ->]; reflexivity.
  - eexists. split; [unfold range_search; cbn -[search_one]; rewrite P2; reflexivity|]. split; auto. unfold cell_at. rewrite EC. reflexivity.
  - unfold get_observations, range_search. cbn -[search_one]. unfold ob_getitem. rewrite P2, EC, EL. reflexivity.
Qed.
(** Finding: an empty index list is refused although it selects no rows. *)
Theorem C36_empty_index_refuted : forall o, filter_rows o (RIndex []) = Err IndexError.
Proof. reflexivity. Qed.
Example C36_applies : exists o o', tbl o /\ filter_rows o (RMask [false; true; true]) = Ok o' /\ kept [false; true; true] = [1; 2]%nat /\
  cell_at o' "time" 0 = Some (CNum 2) /\ cell_at o "time" 1 = Some (CNum 2).
Proof.
  destruct (ob_make three_rows None [] [] None) as [o|] eqn:EO; [|discriminate].
  assert (HT : tbl o) by (apply (tbl_make _ _ _ _ _ _ three_rows_ok) with (2 := EO); discriminate).
  injection EO as EO. destruct (filter_rows o (RMask [false; true; true])) as [o'|] eqn:EF; [|subst o; discriminate].
  exists o, o'. split; auto. split; auto. split; auto. subst o. injection EF as EF. subst o'. split; reflexivity.
Qed.

(** ** C37 *)
Lemma target_id : forall cols c, target (map (fun c => (c, c)) cols) c = c.
Proof.
  intros cols c. unfold target. destruct (dget c (map (fun c => (c, c)) cols)) eqn:E; auto. apply dget_In in E. apply in_map_iff in E.
  destruct E as (x & E & _). congruence.
Qed.
Lemma remap_step_eq : forall cols nm inv k v st, remap_step cols (nm, inv) (k, v) = Ok st ->
  (forall c, c <> v -> target (fst st) c = target nm c) /\ (forall c, c <> v -> dget c (snd st) = dget c inv) /\
  dget v (snd st) = Some k /\ (dmem v nm = true -> target (fst st) v = k) /\ (forall c, dmem c (fst st) = dmem c nm).
Proof.
  intros cols nm inv k v st H. simpl in H.
  destruct (dmem v nm) eqn:EV; [destruct (smem k cols && negb (String.eqb k v))%bool; [discriminate|]|]; injection H as <-; cbn [fst snd];
    (split; [|split; [intros c Hc; now apply dget_dset_other|split; [apply dget_dset_same|split]]]).
  - intros c Hc. unfold target. now rewrite dget_dset_other.
  - intros _. unfold target. now rewrite dget_dset_same.
  - intros c. rewrite dmem_dset. destruct (String.eqb c v) eqn:E; auto. apply String.eqb_eq in E. now subst.
  - reflexivity.
  - discriminate.
  - reflexivity.
Qed.
Lemma remap_fold_eq : forall cols cm nm inv st, fold_res (remap_step cols) (nm, inv) cm = Ok st ->
  (forall c, ~ In c (map snd cm) -> target (fst st) c = target nm c /\ dget c (snd st) = dget c inv) /\
  (forall k v, NoDup (map snd cm) -> In (k, v) cm -> dget v (snd st) = Some k /\ (dmem v nm = true -> target (fst st) v = k)).
Proof.
  induction cm as [|[k v] cm IH]; intros nm inv st H.
  - simpl in H. injection H as <-. split; auto. intros k v _ [].
  - change (match remap_step cols (nm, inv) (k, v) with Ok s' => fold_res (remap_step cols) s' cm | Err e => Err e end = Ok st) in H.
    destruct (remap_step cols (nm, inv) (k, v)) as [[nm1 inv1]|] eqn:E; [|discriminate].
    destruct (remap_step_eq _ _ _ _ _ _ E) as (A1 & A2 & A3 & A4 & A5). cbn [fst snd] in *.
    destruct (IH _ _ _ H) as [B1 B2]. split.
    + intros c Hc. simpl in Hc. destruct (B1 c) as [X Y]; [tauto|]. rewrite X, Y. split; [apply A1|apply A2]; intuition.
    + intros k' v' ND HI. simpl in ND. inversion ND as [|? ? N1 N2]; subst. destruct HI as [HI|HI].
      * inversion HI; subst. destruct (B1 v' N1) as [X Y]. rewrite X, Y. auto.
      * destruct (B2 k' v' N2 HI) as [X Y]. split; auto. intros D. apply Y. now rewrite A5.
Qed.
Lemma dget_rename : forall A nm (d : dict A) c v, (forall c1 c2, In c1 (dkeys d) -> In c2 (dkeys d) -> target nm c1 = target nm c2 -> c1 = c2) ->
  dget c d = Some v -> dget (target nm c) (rename_cols nm d) = Some v.
Proof.
  intros A nm d c v HI H. induction d as [|[k x] d IH]; [discriminate|]. simpl in *.
  change (match dget k nm with Some k0 => k0 | None => k end) with (target nm k).
  destruct (String.eqb c k) eqn:E.
  - apply String.eqb_eq in E. subst. now rewrite String.eqb_refl.
  - destruct (String.eqb (target nm c) (target nm k)) eqn:E2.
    + apply String.eqb_eq in E2. apply HI in E2; [|right|left; auto].
      * subst. rewrite String.eqb_refl in E. discriminate.
      * apply (dget_keys _ c d). congruence.
    + apply IH; auto.
Qed.
Lemma make_remap : forall f cm meta kw fp o, ob_make f cm meta kw fp = Ok o -> remap cm f = Ok (ob_frame o, ob_inv o).
Proof.
  intros f cm meta kw fp o H. unfold ob_make in H. destruct (remap cm f) as [[f' inv]|]; [|discriminate]. cbn [bind] in H.
  destruct (forallb _ required); [|discriminate]. injection H as <-. reflexivity.
Qed.
(** No column is lost or duplicated: same data, in the same order, under pairwise different names. *)
Theorem C37_no_column_lost : forall f cm meta kw fp o, frame_ok f -> (forall d, cm = Some d -> NoDup (dkeys d)) ->
  ob_make f cm meta kw fp = Ok o ->
  map snd (f_cols (ob_frame o)) = map snd (f_cols f) /\ NoDup (columns (ob_frame o)) /\ f_labels (ob_frame o) = f_labels f.
Proof.
  intros f cm meta kw fp o F HC H. apply make_remap in H. destruct (remap_ok _ _ _ _ F HC H) as ([N _] & L & nm & E & _).
  split; [|split; auto]. rewrite E. unfold rename_cols. now rewrite map_map.
Qed.
(** A mapped column is found under the standard name and under the survey's own name. *)
Theorem C37_renamed : forall f cm meta kw fp o k v c, frame_ok f -> NoDup (dkeys cm) -> NoDup (map snd cm) ->
  ob_make f (Some cm) meta kw fp = Ok o -> In (k, v) cm -> dget v (f_cols f) = Some c ->
  ob_getitem o k = Ok c /\ ob_getitem o v = Ok c /\ In k (columns (ob_frame o)) /\ (k <> v -> ~ In v (columns (ob_frame o))).
Proof.
  intros f cm meta kw fp o k v c F N1 N2 H HI HV. apply make_remap in H. unfold remap in H.
  destruct (fold_res _ _ cm) as [[nm inv]|] eqn:E; [|discriminate]. cbn [bind fst snd] in H. injection H as EF EI.
  assert (R : rinv (columns f) (rev (dkeys cm)) nm inv).
  { rewrite <- (app_nil_r (rev (dkeys cm))). apply (rinv_fold _ cm [] (map (fun c => (c, c)) (columns f)) [] nm inv); auto using rinv_init. }
  destruct (remap_fold_eq _ _ _ _ _ E) as [_ B]. destruct (B k v N2 HI) as [B1 B2]. cbn [fst snd] in *.
  assert (VC : In v (columns f)) by (apply dget_keys; congruence).
  assert (T : target nm v = k). { apply B2. apply (ri_mem _ _ _ _ (rinv_init (columns f))). exact VC. }
  assert (G : dget k (f_cols (ob_frame o)) = Some c).
  { rewrite <- EF. cbn [f_cols]. rewrite <- T. apply dget_rename; auto. intros. eapply ri_inj; eauto. }
  assert (NV : k <> v -> ~ In v (columns (ob_frame o))).
  { intros N HI'. rewrite <- EF in HI'. unfold columns in HI'. cbn [f_cols] in HI'. rewrite rename_keys in HI'. apply in_map_iff in HI'.
    destruct HI' as (x & E' & HX). destruct (ri_new _ _ _ _ R x HX) as [E2|[E2 _]].
    - assert (x = v) by congruence. subst x. congruence.
    - apply E2. now rewrite E'. }
  assert (GK : ob_getitem o k = Ok c) by (unfold ob_getitem; now rewrite G).
  split; auto. split; [|split; [apply dget_keys; congruence|auto]].
  destruct (string_dec k v) as [<-|N]; auto. unfold ob_getitem. specialize (NV N). apply dget_None in NV. unfold columns in NV. rewrite NV.
  rewrite <- EI, B1, G. reflexivity.
Qed.
(** Columns that the map does not mention keep their name. *)
Theorem C37_unmapped : forall f cm meta kw fp o v c, frame_ok f -> NoDup (dkeys cm) ->
  ob_make f (Some cm) meta kw fp = Ok o -> ~ In v (map snd cm) -> dget v (f_cols f) = Some c -> ob_getitem o v = Ok c.
Proof.
  intros f cm meta kw fp o v c F N1 H HI HV. apply make_remap in H. unfold remap in H.
  destruct (fold_res _ _ cm) as [[nm inv]|] eqn:E; [|discriminate]. cbn [bind fst snd] in H. injection H as EF EI.
  assert (R : rinv (columns f) (rev (dkeys cm)) nm inv).
  { rewrite <- (app_nil_r (rev (dkeys cm))). apply (rinv_fold _ cm [] (map (fun c => (c, c)) (columns f)) [] nm inv); auto using rinv_init. }
  destruct (remap_fold_eq _ _ _ _ _ E) as [B _]. destruct (B v HI) as [B1 _]. cbn [fst] in B1.
  assert (T : target nm v = v).
  { rewrite B1. apply target_id. }
  unfold ob_getitem. rewrite <- EF. cbn [f_cols]. rewrite <- T.
  now rewrite (dget_rename _ nm (f_cols f) v c (ri_inj _ _ _ _ R) HV).
Qed.
Lemma remap_fold_err : forall cols cm nm inv e, fold_res (remap_step cols) (nm, inv) cm = Err e -> e = ValueError.
Proof.
  induction cm as [|[k v] cm IH]; intros nm inv e H; [discriminate|].
  change (match remap_step cols (nm, inv) (k, v) with Ok s' => fold_res (remap_step cols) s' cm | Err e => Err e end = Err e) in H.
  destruct (remap_step cols (nm, inv) (k, v)) as [[nm1 inv1]|] eqn:E; [eauto|]. injection H as <-. simpl in E.
  destruct (dmem v nm); [destruct (smem k cols && negb (String.eqb k v))%bool|]; congruence.
Qed.
(** Renaming onto another existing column is refused. *)
Theorem C37_collision : forall f cm meta kw fp k v, In (k, v) cm -> In v (columns f) -> In k (columns f) -> k <> v ->
  ob_make f (Some cm) meta kw fp = Err ValueError.
Proof.
  intros f cm meta kw fp k v HI HV HK HN. unfold ob_make, remap.
  assert (X : forall cm nm inv, (forall c, In c (columns f) -> dmem c nm = true) -> In (k, v) cm -> exists e, fold_res (remap_step (columns f)) (nm, inv) cm = Err e).
  { clear cm HI. induction cm as [|[k' v'] cm IH]; intros nm inv HM HI; [destruct HI|].
    change (exists e, match remap_step (columns f) (nm, inv) (k', v') with Ok s' => fold_res (remap_step (columns f)) s' cm | Err e => Err e end = Err e).
    destruct (remap_step (columns f) (nm, inv) (k', v')) as [[nm1 inv1]|] eqn:E; [|eauto].
    destruct HI as [HI|HI].
    - inversion HI; subst. exfalso. simpl in E. rewrite (HM v HV) in E. apply smem_In in HK. rewrite HK in E. simpl in E.
      apply String.eqb_neq in HN. rewrite HN in E. discriminate.
    - apply IH; auto. intros c Hc. destruct (remap_step_eq _ _ _ _ _ _ E) as (_ & _ & _ & _ & A). cbn [fst] in A. rewrite A. auto. }
  destruct (X cm (map (fun c => (c, c)) (columns f)) []) as (e & E); auto.
  - intros c Hc. now apply (ri_mem _ _ _ _ (rinv_init (columns f))).
  - pose proof (remap_fold_err _ _ _ _ _ E) as EE. subst e. cbv zeta.
    match goal with |- context[fold_res ?a ?b ?c] => replace (fold_res a b c) with (@Err (dict string * dict string) ValueError) by (symmetry; exact E) end. reflexivity.
Qed.
Theorem C37_missing_column : forall f meta kw fp c, frame_ok f -> In c required -> ~ In c (columns f) ->
  ob_make f None meta kw fp = Err KeyError.
Proof.
  intros f meta kw fp c F HR HN. unfold ob_make, remap. cbn [bind]. set (f' := mkFrame _ _).
  assert (EC : columns f' = columns f).
  { unfold f', columns. cbn [f_cols]. rewrite rename_keys. rewrite <- (map_id (dkeys (f_cols f))) at 3. apply map_ext.
    intros a. apply target_id. }
  replace (forallb (fun c0 => smem c0 (columns f')) required) with false; auto. symmetry. apply not_true_iff_false. intros E.
  rewrite forallb_forall in E. specialize (E c HR). rewrite EC in E. apply smem_In in E. auto.
Qed.
(** [key in obstable] says whether [obstable[key]] works. *)
Theorem C37_contains : forall o key, ob_contains o key = true <-> exists c, ob_getitem o key = Ok c.
Proof.
  intros o key. unfold ob_contains, ob_getitem, dmem. destruct (dget key (f_cols (ob_frame o))) as [c|]; simpl; [split; eauto|].
  destruct (dget key (ob_inv o)) as [k|]; simpl; [destruct (dget k (f_cols (ob_frame o)))|]; split; eauto; try discriminate; intros (c' & E); discriminate.
Qed.
(** Two standard names for one survey column: only the last one exists afterwards. *)
Theorem C37_shared_source_refuted : exists f o, frame_ok f /\
  ob_make f (Some [("zp", "x"); ("zp_nJy", "x")]%string) [] [] None = Ok o /\
  In "x"%string (columns f) /\ ob_getitem o "zp" = Err KeyError /\ ob_contains o "zp_nJy" = true.
Proof.
  exists (mkFrame [0%nat] [("ra", [CNum 0]); ("dec", [CNum 0]); ("time", [CNum 0]); ("x", [CNum 7])]%string).
  eexists. split.
  - split; [|repeat constructor]. unfold columns. simpl. repeat constructor; simpl; intuition discriminate.
  - split; [reflexivity|]. simpl. auto 10.
Qed.
Example C37_applies : exists f o, frame_ok f /\ ob_make f (Some [("time", "mjd")]%string) [] [] None = Ok o /\
  ob_getitem o "mjd" = Ok [CNum 5] /\ ob_getitem o "time" = Ok [CNum 5].
Proof.
  exists (mkFrame [0%nat] [("ra", [CNum 0]); ("dec", [CNum 0]); ("mjd", [CNum 5])]%string).
  eexists. split.
  - split; [|repeat constructor]. unfold columns. simpl. repeat constructor; simpl; intuition discriminate.
  - split; [reflexivity|]. split; reflexivity.
Qed.

(** ** C66: survey values and constant columns *)
Lemma fold_dset_get : forall (l : dict sval) acc k, dget k (fold_left (fun acc kv => dset (fst kv) (snd kv) acc) l acc) =
  match dget k (rev l) with Some v => Some v | None => dget k acc end.
Proof.
  induction l as [|[k' v'] l IH]; intros acc k; simpl; auto. rewrite IH, dget_dset, dget_app.
  destruct (dget k (rev l)); auto. simpl. destruct (String.eqb k k'); auto.
Qed.
Lemma dget_rev : forall V (d : dict V) k, NoDup (dkeys d) -> dget k (rev d) = dget k d.
Proof.
  intros V d k ND. destruct (dget k d) as [v|] eqn:E.
  - apply In_dget.
    + unfold dkeys. rewrite map_rev. now apply NoDup_rev.
    + apply -> in_rev. now apply dget_In.
  - apply dget_None in E. apply dget_None. unfold dkeys in *. rewrite map_rev. intros H. apply E. now apply in_rev.
Qed.
(** Keyword arguments override the table's metadata, which overrides the defaults. *)
Theorem C66_precedence : forall f cm meta kw fp o k, NoDup (dkeys meta) -> NoDup (dkeys kw) -> ob_make f cm meta kw fp = Ok o ->
  dget k (ob_values o) = match dget k kw with Some v => Some v | None => match dget k meta with Some v => Some v | None => dget k default_values end end.
Proof.
  intros f cm meta kw fp o k N1 N2 H. unfold ob_make in H. destruct (remap cm f) as [[f' inv]|]; [|discriminate]. cbn [bind] in H.
  destruct (forallb _ required); [|discriminate]. injection H as <-. cbn [ob_values]. unfold merge_values. rewrite !fold_dset_get, !dget_rev by auto. auto.
Qed.
(** The number of survey value [val] for a filter: the number itself or the entry of the per-filter map. *)
Definition value_for (v : sval) (fil : string) : option R :=
  match v with SNum r => Some r | SMap m => dget fil m | _ => None end.
Lemma set_where_spec : forall fil v cells vals i s x, nth_error cells i = Some (CStr s) -> nth_error vals i = Some x ->
  length vals = length cells ->
  nth_error (set_where fil v cells vals) i = Some (if String.eqb s fil then v else x) /\ length (set_where fil v cells vals) = length cells.
Proof.
  intros fil v cells vals i s x H1 H2 HL. unfold set_where. split.
  - rewrite nth_error_map, nth_error_combine, H1, H2. reflexivity.
  - rewrite map_length, combine_length. lia.
Qed.
Lemma fill_spec : forall m cp cells filters vals vals', length vals = length cells ->
  fold_res (fun vals fil => match dget fil m with
        | None => Err ValueError
        | Some v => if (cp && Rleb v 0)%bool then Err ValueError else Ok (set_where fil v cells vals)
        end) vals filters = Ok vals' ->
  length vals' = length cells /\
  (forall fil, In fil filters -> exists v, dget fil m = Some v /\ (cp = true -> 0 < v)) /\
  forall i s, nth_error cells i = Some (CStr s) ->
    nth_error vals' i = (if in_dec string_dec s filters then dget s m else nth_error vals i).
Proof.
  induction filters as [|fil filters IH]; intros vals vals' HL H.
  - simpl in H. injection H as <-. split; auto. split; [intros ? []|]. intros i s Hi. reflexivity.
  - simpl in H. destruct (dget fil m) as [v|] eqn:EV; [|discriminate]. destruct (cp && Rleb v 0)%bool eqn:EC; [discriminate|].
    assert (L2 : length (set_where fil v cells vals) = length cells).
    { unfold set_where. rewrite map_length, combine_length. lia. }
    destruct (IH _ _ L2 H) as (I1 & I2 & I3). split; auto. split.
    + intros f' [<-|HF]; auto. exists v. split; auto. intros ->. simpl in EC. apply Rleb_false in EC. auto.
    + intros i s Hi. rewrite (I3 i s Hi).
      destruct (nth_error vals i) as [x|] eqn:EX.
      2:{ exfalso. apply nth_error_None in EX. assert ((i < length cells)%nat) by (apply nth_error_Some; congruence). lia. }
      destruct (set_where_spec fil v cells vals i s x Hi EX HL) as [EW _]. rewrite EW.
      destruct (in_dec string_dec s filters) as [HI|HI]; destruct (in_dec string_dec s (fil :: filters)) as [HI'|HI']; auto.
      * destruct HI'. right; auto.
      * destruct HI' as [->|HI']; [|tauto]. now rewrite String.eqb_refl.
      * destruct (String.eqb s fil) eqn:ES; auto. apply String.eqb_eq in ES. subst. destruct HI'. left; auto.
Qed.
Lemma constant_column_inv : forall o name cp o' val, tinv o -> dmem name (f_cols (ob_frame o)) = false ->
  dget name (ob_values o) = Some val -> (forall s, val <> SText s) -> val <> SNone ->
  assign_constant o name cp = Ok (true, o') ->
  (forall i s, cell_at o "filter" i = Some (CStr s) -> In s (ob_filters o) ->
     exists v, value_for val s = Some v /\ num_at o' name i = Some v /\ (cp = true -> 0 < v)) /\
  (forall c i, c <> name -> cell_at o' c i = cell_at o c i).
Proof.
  intros o name cp o' val HT HM HV NT NN H. unfold assign_constant in H. rewrite HM, HV in H. cbv zeta in H.
  assert (G : forall m, (forall s, In s (ob_filters o) -> value_for val s = dget s m) ->
    bind (fold_res (fun vals fil => match dget fil m with
        | None => Err ValueError
        | Some v => if (cp && Rleb v 0)%bool then Err ValueError else Ok (set_where fil v (filter_cells (ob_frame o)) vals)
        end) (repeat 0 (nrows (ob_frame o))) (ob_filters o)) (fun vals =>
      bind (add_column o name (ColList (map CNum vals)) false) (fun o' => Ok (true, o'))) = Ok (true, o') ->
    (forall i s, cell_at o "filter" i = Some (CStr s) -> In s (ob_filters o) ->
     exists v, value_for val s = Some v /\ num_at o' name i = Some v /\ (cp = true -> 0 < v)) /\
    (forall c i, c <> name -> cell_at o' c i = cell_at o c i)).
  { intros m EM HH. match type of HH with bind ?X _ = _ => destruct X as [vals|] eqn:EF end; [|discriminate]. cbn [bind] in HH.
    destruct (add_column o name (ColList (map CNum vals)) false) as [o1|] eqn:EA; [|discriminate]. cbn [bind] in HH. injection HH as <-.
    unfold add_column in EA. rewrite HM in EA. cbn [andb] in EA. cbv zeta in EA.
    destruct (length (map CNum vals) =? nrows (ob_frame o))%nat eqn:EL; [|discriminate]. injection EA as <-. split.
    - intros i s HC HS. unfold cell_at in HC. destruct (dget "filter" (f_cols (ob_frame o))) as [cells|] eqn:EC; [|discriminate].
      assert (FC : filter_cells (ob_frame o) = cells) by (unfold filter_cells; now rewrite EC). rewrite FC in EF.
      destruct (ti_frame o HT) as [_ F2]. rewrite Forall_forall in F2. pose proof (F2 _ (dget_In _ _ _ _ EC)) as HL. simpl in HL.
      assert (RL : length (repeat 0 (nrows (ob_frame o))) = length cells) by (rewrite repeat_length; auto).
      destruct (fill_spec _ _ _ _ _ _ RL EF) as (_ & FS2 & FS3).
      destruct (FS2 s HS) as (v & Ev & Hp). exists v. rewrite EM by auto. split; auto. split; auto.
      unfold num_at, cell_at. cbn [ob_frame f_cols]. rewrite dget_dset_same, nth_error_map, (FS3 i s HC).
      destruct (in_dec string_dec s (ob_filters o)); [|tauto]. rewrite Ev. reflexivity.
    - intros c i Hc. unfold cell_at. cbn [ob_frame f_cols]. now rewrite dget_dset_other. }
  destruct val as [|r|m|s]; [congruence| | |now destruct (NT s)].
  - apply (G (map (fun fil => (fil, r)) (ob_filters o))); auto. intros s HS. simpl. symmetry.
    clear - HS. induction (ob_filters o) as [|f l IH]; [destruct HS|]. simpl. destruct (String.eqb s f) eqn:E; auto.
    destruct HS as [->|HS]; auto. rewrite String.eqb_refl in E. discriminate.
  - apply (G m); auto.
Qed.
(** A constant column has in each row the survey value for that row's filter, provided the filter list of
    the table covers the row. *)
Theorem C66_constant_column : forall o name cp o' val, tbl o -> dmem name (f_cols (ob_frame o)) = false ->
  dget name (ob_values o) = Some val -> (forall s, val <> SText s) -> val <> SNone ->
  assign_constant o name cp = Ok (true, o') ->
  (forall i s, cell_at o "filter" i = Some (CStr s) -> In s (ob_filters o) ->
     exists v, value_for val s = Some v /\ num_at o' name i = Some v /\ (cp = true -> 0 < v)) /\
  (forall c i, c <> name -> cell_at o' c i = cell_at o c i).
Proof. intros o name cp o' val HT. apply constant_column_inv. now apply tbl_inv. Qed.
Theorem C66_existing_column_kept : forall o name cp, dmem name (f_cols (ob_frame o)) = true -> assign_constant o name cp = Ok (true, o).
Proof. intros. unfold assign_constant. now rewrite H. Qed.
Theorem C66_no_value : forall o name cp, dmem name (f_cols (ob_frame o)) = false ->
  (dget name (ob_values o) = None \/ dget name (ob_values o) = Some SNone) -> assign_constant o name cp = Ok (false, o).
Proof. intros o name cp H [E|E]; unfold assign_constant; now rewrite H, E. Qed.
(** The filter list covers the table right after construction. *)
Lemma In_fold_sadd : forall l acc x, In x (fold_left (fun acc s => sadd s acc) l acc) <-> In x l \/ In x acc.
Proof.
  induction l as [|a l IH]; intros acc x; simpl; [tauto|]. rewrite IH, In_sadd. intuition.
Qed.
Theorem C66_filters_cover : forall f cm meta kw fp o i s, ob_make f cm meta kw fp = Ok o -> cell_at o "filter" i = Some (CStr s) ->
  In s (ob_filters o).
Proof.
  intros f cm meta kw fp o i s H HC. unfold ob_make in H. destruct (remap cm f) as [[f' inv]|]; [|discriminate]. cbn [bind] in H.
  destruct (forallb _ required); [|discriminate]. injection H as <-. unfold cell_at in HC. cbn [ob_frame ob_filters] in *. unfold unique_filters.
  destruct (dget "filter" (f_cols f')) as [c|]; [|discriminate]. apply In_fold_sadd. left. apply in_flat_map. exists (CStr s).
  split; [eapply nth_error_In; eauto|simpl; auto].
Qed.
(** Finding: for a table without filter column a numeric survey value produces a column of zeros. *)
Theorem C66_no_filter_column_refuted : exists o o', tbl o /\ dget "read_noise" (ob_values o) = Some (SNum 5) /\
  assign_constant o "read_noise" true = Ok (true, o') /\ num_at o' "read_noise" 0 = Some 0.
Proof.
  exists (mkObs (one_row 0 0 0) [] (dset "read_noise" (SNum 5) default_values) [] [cart 0 0] None). eexists. split; [|split; [reflexivity|split; [reflexivity|reflexivity]]].
  apply (tbl_make (one_row 0 0 0) None [] [("read_noise"%string, SNum 5)] None); [apply one_row_ok|discriminate|reflexivity].
Qed.
Example C66_applies : exists o o', tbl o /\ assign_constant o "read_noise" true = Ok (true, o') /\
  num_at o' "read_noise" 1 = Some 7 /\ cell_at o "filter" 1 = Some (CStr "r").
Proof.
  set (f := mkFrame [0; 1]%nat [("ra", [CNum 0; CNum 0]); ("dec", [CNum 0; CNum 0]); ("time", [CNum 0; CNum 1]); ("filter", [CStr "g"; CStr "r"])]%string).
  destruct (ob_make f None [] [("read_noise"%string, SMap [("g", 5); ("r", 7)]%string)] None) as [o|] eqn:EO; [|discriminate].
  assert (HT : tbl o).
  { apply (tbl_make f None [] [("read_noise"%string, SMap [("g", 5); ("r", 7)]%string)] None); auto; [|discriminate].
    split; [|repeat constructor]. unfold columns. simpl. repeat constructor; simpl; intuition discriminate. }
  exists o. injection EO as EO.
  assert (EA : exists o', assign_constant o "read_noise" true = Ok (true, o')).
  { subst o. unfold assign_constant. simpl. replace (Rleb 5 0) with false by (symmetry; apply Rleb_false; lra).
    replace (Rleb 7 0) with false by (symmetry; apply Rleb_false; lra). simpl. eauto. }
  destruct EA as (o' & EA). exists o'. split; auto. split; auto.
  assert (HC : cell_at o "filter" 1 = Some (CStr "r")) by (subst o; reflexivity). split; auto.
  destruct (C66_constant_column o "read_noise" true o' (SMap [("g", 5); ("r", 7)]%string)) as [A _]; auto; try (subst o; reflexivity); try discriminate.
  destruct (A 1%nat "r"%string HC) as (v & E1 & E2 & _); [subst o; simpl; auto|]. simpl in E1. congruence.
Qed.
