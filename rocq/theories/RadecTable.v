(** Property C99: positions drawn from the pointings of an observation table (ObsTableRADECSampler). *)
From Coq Require Import Reals String List Bool Arith ZArith Lia Lra.
From Verif Require Import Base BaseFacts RealBase GraphStateModel GraphStateProofs GraphStateProofs2 GraphStateProofs3 GraphStateProofs4 GraphStateProps NodeGraphModel SamplerModel SamplerProps ObsTableModel ObsTableProps ExternalProps DustProps RadecModel RadecTrig RadecProps.
Import ListNotations.
Open Scope string_scope.
Open Scope list_scope.
Open Scope nat_scope.

(** ** Lists *)
Lemma Forall2_nth : forall A B (P : A -> B -> Prop) l1 l2 i a, Forall2 P l1 l2 -> nth_error l1 i = Some a -> exists b, nth_error l2 i = Some b /\ P a b.
Proof. intros A B P l1 l2 i a H. revert i. induction H; intros [|i] E; try discriminate; cbn in *; [injection E as <-; eauto|auto]. Qed.
Lemma Forall2_len : forall A B (P : A -> B -> Prop) l1 l2, Forall2 P l1 l2 -> length l1 = length l2.
Proof. induction 1; cbn; congruence. Qed.
Definition add_all (xs ds : list R) : list R := map (fun p => (fst p + snd p)%R) (combine xs ds).
Lemma add_all_length : forall xs ds, length xs = length ds -> length (add_all xs ds) = length xs.
Proof. intros. unfold add_all. rewrite map_length, combine_length. lia. Qed.
Lemma add_all_nth : forall xs ds i x d, nth_error xs i = Some x -> nth_error ds i = Some d -> nth_error (add_all xs ds) i = Some (x + d)%R.
Proof.
  unfold add_all. induction xs as [|a xs IH]; intros [|b ds] [|i] x d H1 H2; try discriminate; cbn in *; [injection H1 as <-; injection H2 as <-; reflexivity|auto].
Qed.
Lemma add_offset_stored : forall n xs v ds, stored_as n xs v -> length xs = length ds -> length xs = n -> add_offset v ds = Arr (map Atom (add_all xs ds)).
Proof.
  intros n xs v ds [(-> & x & -> & ->)|(N & ->)] L Ln.
  - destruct ds as [|d [|e ds]]; try discriminate. reflexivity.
  - cbn [add_offset]. f_equal. clear. revert ds. induction xs as [|x xs IH]; intros [|d ds]; cbn; auto. unfold add_all in IH. now rewrite IH.
Qed.
Lemma elems_atoms : forall A (l : list A), elems (Arr (map Atom l)) = l.
Proof. intros A l. apply elems_Arr. Qed.
Lemma stored_elems : forall A n (xs : list A) v, stored_as n xs v -> elems v = xs.
Proof. intros A n xs v [(-> & x & -> & ->)|(N & ->)]; [reflexivity|apply elems_atoms]. Qed.

(** ** The table inside the node *)
Section Tab.
Variables c1 c2 c3 : list R.
Definition data3 : dict (list R) := [("ra", c1); ("dec", c2); ("time", c3)].
Definition tab_ok (io : bool) (t : tsampler R) : Prop :=
  ts_data t = data3 /\ ts_num t = length c1 /\ ts_in_order t = io /\ length c2 = length c1 /\ length c3 = length c1 /\ 1 <= length c1.
Definition rows_of (c : list R) (rows : list nat) (xs : list R) : Prop := Forall2 (fun r a => nth_error c r = Some a) rows xs.
Lemma cols3 : forall n rows, 1 <= n -> length rows = n -> length c2 = length c1 -> length c3 = length c1 -> Forall (fun i => i < length c1) rows ->
  exists x1 x2 x3 v1 v2 v3, ts_columns data3 n rows = Ok [v1; v2; v3] /\ stored_as n x1 v1 /\ stored_as n x2 v2 /\ stored_as n x3 v3 /\ rows_of c1 rows x1 /\ rows_of c2 rows x2 /\ rows_of c3 rows x3.
Proof.
  intros n rows Hn L L2 L3 HV. assert (T : forall c, length c = length c1 -> exists xs v, take_inds c rows = Ok xs /\ squeeze n xs = Ok v /\ stored_as n xs v /\ rows_of c rows xs).
  { intros c Lc. rewrite <- Lc in HV. destruct (take_inds_ok _ c rows HV) as (xs & E & LX). destruct (squeeze_stored _ n xs ltac:(congruence) Hn) as (v & E2 & S2). exists xs, v. repeat split; auto. now apply take_inds_rows. }
  destruct (T c1 eq_refl) as (x1 & v1 & A1 & B1 & S1 & R1). destruct (T c2 L2) as (x2 & v2 & A2 & B2 & S2 & R2). destruct (T c3 L3) as (x3 & v3 & A3 & B3 & S3 & R3).
  exists x1, x2, x3, v1, v2, v3. split; [|auto 10]. unfold data3. cbn [ts_columns]. rewrite A1, A2, A3. cbn [bind]. rewrite B1, B2, B3. reflexivity.
Qed.
Lemma tab_step : forall io t n draws t' r, tab_ok io t -> 1 <= n -> (io = false -> length draws = n /\ Forall (fun i => i < length c1) draws) -> ts_compute t n draws = (t', r) ->
  tab_ok io t' /\
  ((io = true /\ length c1 < ts_next t + n /\ t' = t /\ r = Err IndexError) \/
   exists rows, length rows = n /\ Forall (fun i => i < length c1) rows /\ (io = true -> rows = seq (ts_next t) n /\ ts_next t' = ts_next t + n /\ ts_next t + n <= length c1) /\ (io = false -> rows = draws /\ t' = t) /\
     exists x1 x2 x3 v1 v2 v3, r = Ok [v1; v2; v3] /\ stored_as n x1 v1 /\ stored_as n x2 v2 /\ stored_as n x3 v3 /\ rows_of c1 rows x1 /\ rows_of c2 rows x2 /\ rows_of c3 rows x3).
Proof.
  intros io t n draws t' r (D & N & I & L2 & L3 & L1) Hn HD E. unfold ts_compute in E. rewrite I, D in E. destruct io.
  - cbn [table_len data3] in E. destruct (Nat.ltb_spec (length c1) (ts_next t + n)).
    + injection E as <- <-. split; [repeat split; auto|]. left. auto.
    + injection E as <- <-. split; [repeat split; auto|]. right. replace (ts_next t + n - ts_next t) with n by lia. exists (seq (ts_next t) n). split; [apply seq_length|].
      assert (F : Forall (fun i => i < length c1) (seq (ts_next t) n)) by (apply Forall_forall; intros i Hi; apply in_seq in Hi; lia).
      split; auto. split; [auto|]. split; [discriminate|]. apply cols3; auto. apply seq_length.
  - injection E as <- <-. split; [repeat split; auto|]. right. destruct (HD eq_refl) as [HL HF]. exists draws. split; auto. split; auto. split; [discriminate|]. split; auto. apply cols3; auto.
Qed.
End Tab.

(** ** Saving *)
Lemma save3 : forall node v1 v2 v3 (st : gs R), wf st -> has_dot node = false ->
  store_value (gs_n st) v1 = Ok v1 -> store_value (gs_n st) v2 = Ok v2 -> store_value (gs_n st) v3 = Ok v3 ->
  exists st', save_results_gs st node os_outs (Arr [v1; v2; v3]) = (st', None) /\ wf st' /\ gs_n st' = gs_n st /\ (forall nd k, is_fixed st' nd k = is_fixed st nd k) /\
    (is_fixed st node "ra" = false -> reads st' node "ra" v1) /\ (is_fixed st node "dec" = false -> reads st' node "dec" v2) /\ (is_fixed st node "time" = false -> reads st' node "time" v3) /\
    (forall nd k w, nd <> node \/ ~ In k os_outs \/ is_fixed st nd k = true -> (reads st' nd k w <-> reads st nd k w)).
Proof.
  intros node v1 v2 v3 st W HN S1 S2 S3.
  destruct (set_values R node [("ra", v1); ("dec", v2); ("time", v3)] st W) as (st' & E & W' & N' & F' & HV & HO); auto.
  { cbn. repeat constructor; cbn; intuition discriminate. }
  { intros k [<-|[<-|[<-|[]]]]; reflexivity. }
  { intros k v [H|[H|[H|[]]]]; injection H as <- <-; auto. }
  exists st'. split; [exact E|]. split; auto. split; auto. split; auto. split; [intros; apply HV; cbn; auto|]. split; [intros; apply HV; cbn; auto|]. split; [intros; apply HV; cbn; auto|]. exact HO.
Qed.
Lemma atoms_storable : forall n (xs : list R), length xs = n -> store_value n (Arr (map Atom xs)) = Ok (Arr (map Atom xs)).
Proof. intros n xs L. unfold store_value. destruct (n =? 1); auto. rewrite map_length, L, Nat.eqb_refl. reflexivity. Qed.

(** ** One call *)
Section Table.
Context {G : Type}.
Variable seeded : Z -> G.
Variable unit_draws : nat -> G -> list R * G.
Variable int_draws : nat -> nat -> G -> list nat * G.
Hypothesis HU : unit_spec unit_draws.
Hypothesis HI : int_spec int_draws.
Notation os_compute := (os_compute unit_draws int_draws).
(** The offset of a sample with the two numbers [u] and [w]: a point of the disc of the radius. *)
Definition offset_x (r u w : R) : R := (r * sqrt u * cos (2 * PI * w))%R.
Definition offset_y (r u w : R) : R := (r * sqrt u * sin (2 * PI * w))%R.
(** The generator in use, and after the rows were drawn. *)
Definition in_use (s : onode G) (rng : option G) : G := match rng with Some g => g | None => on_own s end.
Definition after_rows (io : bool) (m n : nat) (g : G) : G := if io then g else snd (int_draws m n g).
Lemma off_nth : forall r us ws i u w, nth_error us i = Some u -> nth_error ws i = Some w ->
  let amt := map (fun u => (r * sqrt u)%R) (map (fun u => (0 + (1 - 0) * u)%R) us) in let ang := map (fun w => (2 * PI * w)%R) (map (fun u => (0 + (1 - 0) * u)%R) ws) in
  nth_error (map (fun p => (fst p * cos (snd p))%R) (combine amt ang)) i = Some (offset_x r u w) /\ nth_error (map (fun p => (fst p * sin (snd p))%R) (combine amt ang)) i = Some (offset_y r u w).
Proof.
  intros r. induction us as [|a us IH]; intros [|b ws] [|i] u w H1 H2; try discriminate; cbn in *.
  - injection H1 as <-. injection H2 as <-. unfold offset_x, offset_y. replace (0 + (1 - 0) * a)%R with a by ring. replace (0 + (1 - 0) * b)%R with b by ring. auto.
  - now apply IH.
Qed.
Lemma os_step : forall c1 c2 c3 io s st rng s' rng' st' res, tab_ok c1 c2 c3 io (on_tab s) -> reachable st -> has_dot (on_str s) = false -> os_compute s st rng = (s', rng', st', res) ->
  let n := gs_n st in let g1 := after_rows io (length c1) n (in_use s rng) in
  let us := fst (unit_draws n g1) in let ws := fst (unit_draws n (snd (unit_draws n g1))) in
  tab_ok c1 c2 c3 io (on_tab s') /\ on_str s' = on_str s /\ on_radius s' = on_radius s /\ (rng <> None -> on_own s' = on_own s) /\
  ((io = true /\ length c1 < ts_next (on_tab s) + n /\ on_tab s' = on_tab s /\ res = Err IndexError /\ st' = st) \/
   exists rows ras decs ts v1 v2 v3, res = Ok [v1; v2; v3] /\ length rows = n /\ length ras = n /\ length decs = n /\ Forall (fun i => i < length c1) rows /\
     (io = true -> rows = seq (ts_next (on_tab s)) n /\ ts_next (on_tab s') = ts_next (on_tab s) + n /\ ts_next (on_tab s) + n <= length c1) /\
     (io = false -> rows = fst (int_draws (length c1) n (in_use s rng))) /\
     (if Rltb 0 (on_radius s) then v1 = Arr (map Atom ras) /\ v2 = Arr (map Atom decs) else stored_as n ras v1 /\ stored_as n decs v2) /\ stored_as n ts v3 /\ rows_of c3 rows ts /\
     (forall i row, nth_error rows i = Some row -> exists ra dec, nth_error c1 row = Some ra /\ nth_error c2 row = Some dec /\
        (0 < on_radius s -> forall u w, nth_error us i = Some u -> nth_error ws i = Some w -> nth_error ras i = Some (ra + offset_x (on_radius s) u w) /\ nth_error decs i = Some (dec + offset_y (on_radius s) u w))%R /\
        (~ 0 < on_radius s -> nth_error ras i = Some ra /\ nth_error decs i = Some dec)%R) /\
     gs_n st' = n /\ (forall k v, In (k, v) [("ra", v1); ("dec", v2); ("time", v3)] -> ~ fixed_in st (on_str s) k -> reads st' (on_str s) k v) /\
     (forall nd k w, nd <> on_str s \/ ~ In k os_outs \/ fixed_in st nd k -> (reads st' nd k w <-> reads st nd k w))).
Proof.
  intros c1 c2 c3 io s st rng s' rng' st' res HT HR HN E n g1 us ws. assert (W := reachable_wf _ HR). pose proof (wf_n _ W) as Wn. fold n in Wn.
  unfold RadecModel.os_compute in E. fold n in E. pose proof HT as (D & N & I & L2 & L3 & L1). rewrite I, N in E. fold (in_use s rng) in E.
  assert (E0 : (if io then ([], in_use s rng) else int_draws (length c1) n (in_use s rng)) = ((if io then [] else fst (int_draws (length c1) n (in_use s rng))), g1)).
  { unfold g1, after_rows. destruct io; auto. now destruct (int_draws (length c1) n (in_use s rng)). }
  rewrite E0 in E. destruct (ts_compute (on_tab s) n _) as [t' r] eqn:ET.
  destruct (tab_step c1 c2 c3 io (on_tab s) n (if io then [] else fst (int_draws (length c1) n (in_use s rng))) t' r HT Wn) as (HT' & Q); [|exact ET|].
  { intros ->. destruct (HI (length c1) n (in_use s rng)) as [A B]. auto. }
  destruct Q as [(-> & LL & -> & ->)|(rows & LR & FR & IR & DR & x1 & x2 & x3 & v1 & v2 & v3 & -> & S1 & S2 & S3 & R1 & R2 & R3)].
  { destruct rng; injection E as <- <- <- <-; cbn [on_tab on_str on_radius on_own]; repeat match goal with |- _ /\ _ => split end; auto; try congruence; left; auto. }
  assert (LX1 : length x1 = n) by (rewrite <- (Forall2_len _ _ _ _ _ R1); auto). assert (LX2 : length x2 = n) by (rewrite <- (Forall2_len _ _ _ _ _ R2); auto). assert (LX3 : length x3 = n) by (rewrite <- (Forall2_len _ _ _ _ _ R3); auto).
  destruct (save3 (on_str s) v1 v2 v3 st W HN (stored_storable _ n _ _ Wn LX1 S1) (stored_storable _ n _ _ Wn LX2 S2) (stored_storable _ n _ _ Wn LX3 S3)) as (st1 & ES & W1 & N1 & F1 & A1 & A2 & A3 & AO).
  rewrite ES in E. destruct (Rltb 0 (on_radius s)) eqn:ER.
  - apply Rltb_true in ER. unfold rng_uniform in E. unfold us, ws. destruct (HU n g1) as [LU _]. destruct (unit_draws n g1) as [us0 g2]. cbn [fst snd] in *. destruct (HU n g2) as [LW _]. destruct (unit_draws n g2) as [ws0 g3]. cbn [fst snd] in *.
    set (amt := map (fun u => (on_radius s * sqrt u)%R) _) in E. set (ang := map (fun w => (2 * PI * w)%R) _) in E.
    set (dra := map (fun p => (fst p * cos (snd p))%R) (combine amt ang)) in E. set (ddec := map (fun p => (fst p * sin (snd p))%R) (combine amt ang)) in E.
    assert (LA : length amt = n) by (unfold amt; now rewrite !map_length). assert (LB : length ang = n) by (unfold ang; now rewrite !map_length).
    assert (LD1 : length dra = n) by (unfold dra; rewrite map_length, combine_length; lia). assert (LD2 : length ddec = n) by (unfold ddec; rewrite map_length, combine_length; lia).
    rewrite (add_offset_stored n x1 v1 dra S1), (add_offset_stored n x2 v2 ddec S2) in E by congruence.
    assert (LS1 : length (add_all x1 dra) = n) by (rewrite add_all_length; congruence). assert (LS2 : length (add_all x2 ddec) = n) by (rewrite add_all_length; congruence).
    destruct (save3 (on_str s) (Arr (map Atom (add_all x1 dra))) (Arr (map Atom (add_all x2 ddec))) v3 st1 W1 HN) as (st2 & ES2 & W2 & N2 & F2 & B1 & B2 & B3 & BO);
      [rewrite N1; now apply atoms_storable|rewrite N1; now apply atoms_storable|rewrite N1; exact (stored_storable _ n _ _ Wn LX3 S3)|].
    rewrite ES2 in E.
    assert (E' : on_tab s' = t' /\ on_str s' = on_str s /\ on_radius s' = on_radius s /\ (rng <> None -> on_own s' = on_own s) /\ st' = st2 /\ res = Ok [Arr (map Atom (add_all x1 dra)); Arr (map Atom (add_all x2 ddec)); v3]).
    { destruct rng; injection E as <- <- <- <-; cbn [on_tab on_str on_radius on_own]; repeat match goal with |- _ /\ _ => split end; auto; congruence. }
    destruct E' as (T1 & T2 & T3 & T4 & -> & ->). rewrite T1, T2, T3. split; auto. split; auto. split; auto. split; auto. right.
    exists rows, (add_all x1 dra), (add_all x2 ddec), x3, (Arr (map Atom (add_all x1 dra))), (Arr (map Atom (add_all x2 ddec))), v3.
    split; [reflexivity|]. split; auto. split; auto. split; auto. split; auto. split; [exact IR|]. split; [intros HF; destruct (DR HF) as [-> _]; now rewrite HF|]. split; [auto|]. split; [exact S3|]. split; [exact R3|]. split; [|split; [exact (eq_trans N2 N1)|split]].
    + intros i row Hi. destruct (Forall2_nth _ _ _ _ _ _ _ R1 Hi) as (ra & P1 & P2). destruct (Forall2_nth _ _ _ _ _ _ _ R2 Hi) as (dec & P3 & P4). exists ra, dec. split; auto. split; auto. split; [|tauto].
      intros _ u w Hu Hw. destruct (off_nth (on_radius s) us0 ws0 i u w Hu Hw) as [O1 O2]. split; now apply add_all_nth.
    + intros k v HK NF. apply fixed_false in NF. destruct HK as [H|[H|[H|[]]]]; injection H as <- <-; [apply B1|apply B2|apply B3]; now rewrite F1.
    + intros nd k w0 H. rewrite BO, AO; [tauto| |]; destruct H as [H|[H|H]]; auto; right; right; rewrite ?F1; now apply fixed_iff.
  - apply Rltb_false in ER.
    assert (E' : on_tab s' = t' /\ on_str s' = on_str s /\ on_radius s' = on_radius s /\ (rng <> None -> on_own s' = on_own s) /\ st' = st1 /\ res = Ok [v1; v2; v3]).
    { destruct rng; injection E as <- <- <- <-; cbn [on_tab on_str on_radius on_own]; repeat match goal with |- _ /\ _ => split end; auto; congruence. }
    destruct E' as (T1 & T2 & T3 & T4 & -> & ->). rewrite T1, T2, T3. split; auto. split; auto. split; auto. split; auto. right.
    exists rows, x1, x2, x3, v1, v2, v3. split; [reflexivity|]. split; auto. split; auto. split; auto. split; auto. split; [exact IR|]. split; [intros HF; destruct (DR HF) as [-> _]; now rewrite HF|]. split; [auto|]. split; [exact S3|]. split; [exact R3|]. split; [|split; [exact N1|split]].
    + intros i row Hi. destruct (Forall2_nth _ _ _ _ _ _ _ R1 Hi) as (ra & P1 & P2). destruct (Forall2_nth _ _ _ _ _ _ _ R2 Hi) as (dec & P3 & P4). exists ra, dec. split; auto. split; auto. split; [intros; lra|auto].
    + intros k v HK NF. apply fixed_false in NF. destruct HK as [H|[H|[H|[]]]]; injection H as <- <-; [apply A1|apply A2|apply A3]; auto.
    + intros nd k w0 H. apply AO. destruct H as [H|[H|H]]; auto. right. right. now apply fixed_iff.
Qed.

(** ** Histories *)
Inductive oop := OCompute (st : gs R) (rng : option G) | OReset.
Definition good (o : oop) : Prop := match o with OCompute st _ => reachable st | OReset => True end.
(** The node after the calls [h], and the number of rows handed out by the successful calls since the last [reset]. *)
Definition ostep (sk : onode G * nat) (o : oop) : onode G * nat :=
  match o with
  | OReset => (os_reset (fst sk), 0)
  | OCompute st rng =>
      match os_compute (fst sk) st rng with
      | (s', _, _, Ok _) => (s', snd sk + gs_n st)
      | (s', _, _, Err _) => (s', snd sk)
      end
  end.
Definition orun (s : onode G) (h : list oop) : onode G * nat := fold_left ostep h (s, 0).
(** The rows of the table. *)
Definition rows_in (o : obstable) : nat := length (num_col "ra" (ob_frame o)).
Definition node_ok (o : obstable) (node : string) (r : R) (io : bool) (s : onode G) (k : nat) : Prop :=
  tab_ok (num_col "ra" (ob_frame o)) (num_col "dec" (ob_frame o)) (num_col "time" (ob_frame o)) io (on_tab s) /\ on_str s = node /\ on_radius s = r /\ (io = true -> ts_next (on_tab s) = k).
Lemma col_of : forall o c, tinv o -> In c required -> exists l, ob_getitem o c = Ok l /\ map num_of l = num_col c (ob_frame o).
Proof.
  intros o c T HC. pose proof (ti_req _ T c HC) as H. unfold columns in H. unfold ob_getitem, num_col. destruct (dget c (f_cols (ob_frame o))) as [l|] eqn:E; eauto.
  apply dget_None in E. contradiction.
Qed.
Lemma init_ok : forall node o radius io seed s0, tbl o -> os_init seeded node o radius io seed = Ok s0 -> exists r, radius_of o radius = Some r /\ (0 <= r)%R /\ node_ok o node r io s0 0.
Proof.
  intros node o radius io seed s0 HT E. assert (T := tbl_inv _ HT). unfold os_init in E.
  destruct (col_of o "ra" T) as (l1 & E1 & M1); [cbn; auto|]. destruct (col_of o "dec" T) as (l2 & E2 & M2); [cbn; auto|]. destruct (col_of o "time" T) as (l3 & E3 & M3); [cbn; auto|].
  assert (X : exists r, radius_of o radius = Some r /\ match radius with Some r => Ok r | None => preset_radius o end = Ok r).
  { destruct radius as [r|]; [exists r; split; reflexivity|]. unfold radius_of, preset_radius in *. destruct (dget "radius" (ob_values o)) as [[|r|m|t]|]; try (cbn in E; discriminate). exists r. auto. }
  destruct X as (r & X1 & X2). rewrite X2 in E. cbn [bind] in E. destruct (Rltb r 0) eqn:ER; [discriminate|]. apply Rltb_false in ER. rewrite E1, E2, E3 in E. cbn [bind] in E. rewrite M1, M2, M3 in E.
  unfold ts_make in E. destruct (forallb _ _) eqn:EL; [|discriminate]. cbn [negb] in E. cbn [table_len] in E. destruct (length (num_col "ra" (ob_frame o)) =? 0) eqn:EZ; [discriminate|]. injection E as <-.
  cbn in EL. rewrite Nat.eqb_refl in EL. cbn in EL. apply andb_prop in EL. destruct EL as [Q2 EL]. apply andb_prop in EL. destruct EL as [Q3 _]. apply Nat.eqb_eq in Q2, Q3. apply Nat.eqb_neq in EZ.
  exists r. split; auto. split; [lra|]. repeat split; auto. cbn. lia.
Qed.
Lemma run_ok : forall o node r io h s k, tbl o -> has_dot node = false -> node_ok o node r io s k -> Forall good h -> let sk := fold_left ostep h (s, k) in node_ok o node r io (fst sk) (snd sk).
Proof.
  intros o node r io. induction h as [|x h IH]; intros s k HT HN HO HG; [exact HO|]. inversion HG as [|? ? G1 G2]; subst. cbn [fold_left]. cbv zeta.
  assert (X : node_ok o node r io (fst (ostep (s, k) x)) (snd (ostep (s, k) x))); [|destruct (ostep (s, k) x); now apply IH].
  destruct HO as (H1 & H2 & H3 & H4). destruct x as [st rng|].
  - cbn [ostep fst snd]. destruct (os_compute s st rng) as [[[s' rng'] st'] res] eqn:E.
    destruct (os_step _ _ _ _ _ _ _ _ _ _ _ H1 G1 ltac:(now rewrite H2) E) as (T1 & T2 & T3 & T4 & Q).
    destruct Q as [(-> & _ & Q3 & -> & _)|(rows & ras & decs & ts & v1 & v2 & v3 & -> & _ & _ & _ & _ & Q & _)]; cbn [fst snd].
    + split; auto. split; [congruence|]. split; [congruence|]. intros _. rewrite Q3. auto.
    + split; auto. split; [congruence|]. split; [congruence|]. intros HF. destruct (Q HF) as (_ & -> & _). now rewrite (H4 HF).
  - cbn [ostep fst snd]. destruct H1 as (A & B & C & D). repeat split; auto; apply D.
Qed.
Lemma num_at_col : forall o c i x, nth_error (num_col c (ob_frame o)) i = Some x -> num_at o c i = Some x.
Proof.
  intros o c i x H. unfold num_col in H. unfold num_at, cell_at. destruct (dget c (f_cols (ob_frame o))) as [l|]; [|destruct i; discriminate].
  rewrite nth_error_map in H. exact H.
Qed.
(** After any history of calls: a call either draws one row of the table per sample (with [in_order]: the next rows of the table, each handed out once) and returns for each sample its row's
    time and its row's position moved by a point of the disc with the radius; the three values are stored, and values given in advance and everything else stay.  Or, with [in_order] only, fewer rows are left than
    samples asked for: an IndexError, nothing changes. *)
Theorem C99_samples : forall node o radius io seed s0 h st rng s k s' rng' st' res, tbl o -> has_dot node = false -> os_init seeded node o radius io seed = Ok s0 -> Forall good h -> orun s0 h = (s, k) ->
  reachable st -> os_compute s st rng = (s', rng', st', res) ->
  let n := gs_n st in let g1 := after_rows io (rows_in o) n (in_use s rng) in
  let us := fst (unit_draws n g1) in let ws := fst (unit_draws n (snd (unit_draws n g1))) in
  exists r, radius_of o radius = Some r /\ (0 <= r)%R /\
  ((io = true /\ rows_in o < k + n /\ res = Err IndexError /\ st' = st /\ on_tab s' = on_tab s) \/
   (io = true -> k + n <= rows_in o) /\
   exists rows ras decs ts v1 v2 v3, res = Ok [v1; v2; v3] /\ elems v1 = ras /\ elems v2 = decs /\ stored_as n ts v3 /\ (n <> 1 \/ r = 0%R -> stored_as n ras v1 /\ stored_as n decs v2) /\
     length rows = n /\ length ras = n /\ length decs = n /\ length ts = n /\ rows = (if io then seq k n else fst (int_draws (rows_in o) n (in_use s rng))) /\
     (forall i row, nth_error rows i = Some row -> exists ra dec t, num_at o "ra" row = Some ra /\ num_at o "dec" row = Some dec /\ num_at o "time" row = Some t /\
        nth_error ts i = Some t /\
        (0 < r -> forall u w, nth_error us i = Some u -> nth_error ws i = Some w -> nth_error ras i = Some (ra + offset_x r u w) /\ nth_error decs i = Some (dec + offset_y r u w))%R /\
        (r = 0%R -> nth_error ras i = Some ra /\ nth_error decs i = Some dec)) /\
     gs_n st' = n /\ (forall q v, In (q, v) [("ra", v1); ("dec", v2); ("time", v3)] -> ~ fixed_in st node q -> reads st' node q v) /\
     (forall nd q w, nd <> node \/ ~ In q os_outs \/ fixed_in st nd q -> (reads st' nd q w <-> reads st nd q w))).
Proof.
  intros node o radius io seed s0 h st rng s k s' rng' st' res HT HN EI HG EH HR E n g1 us ws.
  destruct (init_ok _ _ _ _ _ _ HT EI) as (r & R1 & R2 & OK0). exists r. split; auto. split; auto.
  pose proof (run_ok o node r io h s0 0 HT HN OK0 HG) as OK. cbv zeta in OK. fold (orun s0 h) in OK. rewrite EH in OK. cbn [fst snd] in OK. destruct OK as (H1 & H2 & H3 & H4).
  destruct (os_step _ _ _ _ _ _ _ _ _ _ _ H1 HR ltac:(now rewrite H2) E) as (T1 & T2 & T3 & T4 & Q). fold n in Q. fold (rows_in o) in Q.
  destruct Q as [(HIO & Q2 & Q3 & -> & ->)|(rows & ras & decs & ts & v1 & v2 & v3 & -> & L0 & L1 & L2 & FR & Q1 & Q2 & QV & QS & QT & QR & QN & QK & QO)].
  - left. rewrite (H4 HIO) in Q2. auto.
  - right. split. { intros HIO. destruct (Q1 HIO) as (_ & _ & Q). rewrite (H4 HIO) in Q. exact Q. }
    exists rows, ras, decs, ts, v1, v2, v3. split; auto. rewrite H3, H2 in *.
    assert (EL : elems v1 = ras /\ elems v2 = decs /\ (n <> 1 \/ r = 0%R -> stored_as n ras v1 /\ stored_as n decs v2)).
    { destruct (Rltb 0 r) eqn:ER.
      - destruct QV as [-> ->]. apply Rltb_true in ER. rewrite !elems_atoms. split; auto. split; auto. intros [X|X]; [|lra]. split; right; auto.
      - destruct QV as [A B]. split; [now apply (stored_elems _ n)|]. split; [now apply (stored_elems _ n)|]. auto. }
    destruct EL as (EL1 & EL2 & EL3). split; auto. split; auto. split; auto. split; auto. split; auto. split; auto. split; auto. split; [rewrite <- (Forall2_len _ _ _ _ _ QT); exact L0|].
    split. { destruct io; [destruct (Q1 eq_refl) as (-> & _); now rewrite (H4 eq_refl)|now apply Q2]. }
    split; [|split; [auto|split; auto]].
    intros i row Hi. destruct (QR i row Hi) as (ra & dec & P1 & P2 & P3 & P4). destruct (Forall2_nth _ _ _ _ _ _ _ QT Hi) as (t & P5 & P6). exists ra, dec, t.
    split; [now apply num_at_col|]. split; [now apply num_at_col|]. split; [now apply num_at_col|]. split; auto. split; auto. intros ->. apply P4. lra.
Qed.

(** The offset is a point of the disc: its square is the fraction [u] of the radius' square, so all parts of the disc's area are equally likely; its direction is the fraction [w] of a turn. *)
Theorem C99_disc : forall r u w, (0 <= r)%R -> (0 <= u < 1)%R ->
  (offset_x r u w * offset_x r u w + offset_y r u w * offset_y r u w = r * r * u)%R /\
  (0 < r -> forall p, 0 <= p <= r -> (offset_x r u w * offset_x r u w + offset_y r u w * offset_y r u w <= p * p <-> u <= (PI * (p * p)) / (PI * (r * r))))%R.
Proof.
  intros r u w Hr Hu.
  assert (E : (offset_x r u w * offset_x r u w + offset_y r u w * offset_y r u w = r * r * u)%R).
  { unfold offset_x, offset_y. pose proof (sin2_cos2 (2 * PI * w)) as SC. unfold Rsqr in SC.
    replace (r * sqrt u * cos (2 * PI * w) * (r * sqrt u * cos (2 * PI * w)) + r * sqrt u * sin (2 * PI * w) * (r * sqrt u * sin (2 * PI * w)))%R
      with (r * r * (sqrt u * sqrt u) * (sin (2 * PI * w) * sin (2 * PI * w) + cos (2 * PI * w) * cos (2 * PI * w)))%R by ring.
    rewrite SC, sqrt_sqrt by lra. ring. }
  split; auto. intros Hr' p Hp. rewrite E. pose proof PI_RGT_0. assert (0 < r * r)%R by (apply Rmult_lt_0_compat; auto).
  replace (PI * (p * p) / (PI * (r * r)))%R with (p * p / (r * r))%R by (field; lra). split; intros HL.
  - apply Rmult_le_reg_l with (r * r)%R; auto. replace (r * r * (p * p / (r * r)))%R with (p * p)%R by (field; lra). lra.
  - replace (p * p)%R with (r * r * (p * p / (r * r)))%R by (field; lra). apply Rmult_le_compat_l; lra.
Qed.
Lemma sep_self : forall ra dec, separation ra dec ra dec = 0%R.
Proof.
  intros. unfold separation, cos_sep. rewrite Rminus_diag_eq by reflexivity. rewrite cos_0. pose proof (sin2_cos2 (radians dec)) as SC. unfold Rsqr in SC.
  replace (sin (radians dec) * sin (radians dec) + cos (radians dec) * cos (radians dec) * 1)%R with 1%R by lra. rewrite acos_1. field. pose proof PI_RGT_0. lra.
Qed.
(** Every returned position is within the radius of the pointing it was drawn from, as an angle on the sky, wherever the pointing is (radii up to 180 degrees). *)
Theorem C99_within_radius : forall node o radius io seed s0 h st rng s k s' rng' st' v1 v2 v3 r, tbl o -> has_dot node = false -> os_init seeded node o radius io seed = Ok s0 -> Forall good h -> orun s0 h = (s, k) ->
  reachable st -> os_compute s st rng = (s', rng', st', Ok [v1; v2; v3]) -> radius_of o radius = Some r -> (r <= 180)%R ->
  length (elems v1) = gs_n st /\ length (elems v2) = gs_n st /\ length (elems v3) = gs_n st /\
  forall i ra dec t, nth_error (elems v1) i = Some ra -> nth_error (elems v2) i = Some dec -> nth_error (elems v3) i = Some t ->
    exists row ra0 dec0, num_at o "ra" row = Some ra0 /\ num_at o "dec" row = Some dec0 /\ num_at o "time" row = Some t /\ (separation ra0 dec0 ra dec <= r)%R.
Proof.
  intros node o radius io seed s0 h st rng s k s' rng' st' v1 v2 v3 r HT HN EI HG EH HR E ER H180.
  destruct (C99_samples node o radius io seed s0 h st rng s k s' rng' st' _ HT HN EI HG EH HR E) as (r' & ER' & R0 & [(_ & _ & C & _)|(_ & rows & ras & decs & ts & w1 & w2 & w3 & EV & E1 & E2 & S3 & _ & LR & L1 & L2 & L3 & _ & HP & _)]); [discriminate|].
  injection EV as <- <- <-. assert (r' = r) by congruence. subst r'. rewrite E1, E2, (stored_elems _ _ _ _ S3).
  set (n := gs_n st) in *. set (g1 := after_rows io (rows_in o) n (in_use s rng)) in *. destruct (HU n g1) as [LU FU]. destruct (HU n (snd (unit_draws n g1))) as [LW FW].
  set (us := fst (unit_draws n g1)) in *. set (ws := fst (unit_draws n (snd (unit_draws n g1)))) in *.
  assert (V : forall i, i < n -> exists row ra0 dec0 ra dec t, num_at o "ra" row = Some ra0 /\ num_at o "dec" row = Some dec0 /\ num_at o "time" row = Some t /\ nth_error ras i = Some ra /\ nth_error decs i = Some dec /\ nth_error ts i = Some t /\ (separation ra0 dec0 ra dec <= r)%R).
  { intros i Hi. destruct (nth_error rows i) as [row|] eqn:ERow; [|apply nth_error_None in ERow; lia]. destruct (HP i row ERow) as (ra0 & dec0 & t & P1 & P2 & P3 & P4 & P5 & P6).
    destruct R0 as [R0|R0].
    - destruct (nth_error us i) as [u|] eqn:Eu; [|apply nth_error_None in Eu; lia]. destruct (nth_error ws i) as [w|] eqn:Ew; [|apply nth_error_None in Ew; lia].
      destruct (P5 R0 u w eq_refl eq_refl) as [P7 P8]. exists row, ra0, dec0. do 2 eexists. exists t. repeat match goal with |- _ /\ _ => split end; eauto.
      rewrite List.Forall_forall in FU. pose proof (FU u (nth_error_In _ _ Eu)) as BU. apply step_separation; [lra|]. rewrite (proj1 (C99_disc r u w ltac:(lra) BU)).
      assert (r * r * u <= r * r * 1)%R; [|lra]. apply Rmult_le_compat_l; [apply Rmult_le_pos; lra|lra].
    - destruct (P6 (eq_sym R0)) as [P7 P8]. exists row, ra0, dec0, ra0, dec0, t. repeat match goal with |- _ /\ _ => split end; auto. rewrite sep_self. lra. }
  split; auto. split; auto. split; auto. intros i ra dec t H1 H2 H3. assert (Hi : i < n) by (rewrite <- L1; apply nth_error_Some; congruence).
  destruct (V i Hi) as (row & ra0 & dec0 & ra' & dec' & t' & P1 & P2 & P3 & P4 & P5 & P6 & P7). rewrite H1 in P4. rewrite H2 in P5. rewrite H3 in P6. injection P4 as <-. injection P5 as <-. injection P6 as <-. eauto 10.
Qed.
(** So the survey itself says that every sampled position was observed (no detector footprint). *)
Theorem C99_observed : forall ball node o radius io seed s0 h st rng s k s' rng' st' v1 v2 v3 r, ball_spec ball -> tbl o -> ob_footprint o = None -> has_dot node = false -> os_init seeded node o radius io seed = Ok s0 ->
  Forall good h -> orun s0 h = (s, k) -> reachable st -> os_compute s st rng = (s', rng', st', Ok [v1; v2; v3]) -> radius_of o radius = Some r -> (r <= 180)%R ->
  is_observed ball o (QArray (elems v1)) (QArray (elems v2)) radius TNone TNone = Ok (SeenMany (repeat true (gs_n st))).
Proof.
  intros ball node o radius io seed s0 h st rng s k s' rng' st' v1 v2 v3 r HB HT HF HN EI HG EH HR E ER H180.
  destruct (C99_within_radius node o radius io seed s0 h st rng s k s' rng' st' v1 v2 v3 r HT HN EI HG EH HR E ER H180) as (L1 & L2 & L3 & HP).
  destruct (init_ok _ _ _ _ _ _ HT EI) as (r' & ER' & R0 & _). assert (r' = r) by congruence. subst r'.
  destruct (C34_defined ball o (elems v1) (elems v2) radius TNone TNone r ER ltac:(congruence)) as (fo & EF); try discriminate.
  destruct (is_observed ball o (QArray (elems v1)) (QArray (elems v2)) radius TNone TNone) as [sn|e] eqn:EO; [|apply C35_errors in EO; congruence].
  destruct (C35_arrays ball o _ _ _ _ _ r HB HT ER ltac:(lra) sn EO) as (bs & -> & LB & HBs). f_equal. f_equal.
  assert (AT : forall x, In x bs -> x = true).
  { intros x Hx. apply In_nth_error in Hx. destruct Hx as (i & Hi). assert (Li : i < gs_n st) by (rewrite <- L1, <- LB; apply nth_error_Some; congruence).
    destruct (nth_error (elems v1) i) as [ra|] eqn:A1; [|apply nth_error_None in A1; lia]. destruct (nth_error (elems v2) i) as [dec|] eqn:A2; [|apply nth_error_None in A2; lia]. destruct (nth_error (elems v3) i) as [t|] eqn:A3; [|apply nth_error_None in A3; lia].
    destruct (HP i ra dec t A1 A2 A3) as (row & ra0 & dec0 & P1 & P2 & P3 & P4). destruct (HBs i ra dec A1 A2) as (b & B1 & B2). assert (b = x) by congruence. subst b. apply B2. exists row, ra0, dec0, t.
    repeat match goal with |- _ /\ _ => split end; auto; try (intros ? C; discriminate C). intros fp C. congruence. }
  rewrite <- L1, <- LB. clear - AT. induction bs as [|b bs IH]; cbn; auto. rewrite (AT b (or_introl eq_refl)). f_equal. apply IH. intros x Hx. apply AT. now right.
Qed.
(** The node is refused without a radius, with a negative one and without rows. *)
Theorem C99_refused : forall node o radius io seed, tbl o ->
  (radius = None /\ dget "radius" (ob_values o) = Some SNone) \/ (exists r, radius_of o radius = Some r /\ ((r < 0)%R \/ (0 <= r)%R /\ rows_in o = 0)) ->
  os_init seeded node o radius io seed = Err ValueError.
Proof.
  intros node o radius io seed HT H. unfold os_init. destruct H as [[-> H]|(r & ER & H)].
  - unfold preset_radius. now rewrite H.
  - assert (X : match radius with Some r => Ok r | None => preset_radius o end = Ok r).
    { unfold radius_of in ER. destruct radius as [x|]; [congruence|]. unfold preset_radius. destruct (dget "radius" (ob_values o)) as [[|x|m|t]|]; congruence. }
    rewrite X. cbn [bind]. destruct H as [H|[H0 H]].
    + replace (Rltb r 0) with true; auto. symmetry. now apply Rltb_true.
    + replace (Rltb r 0) with false by (symmetry; apply Rltb_false; lra). assert (T := tbl_inv _ HT).
      destruct (col_of o "ra" T) as (l1 & E1 & M1); [cbn; auto|]. destruct (col_of o "dec" T) as (l2 & E2 & M2); [cbn; auto|]. destruct (col_of o "time" T) as (l3 & E3 & M3); [cbn; auto|].
      rewrite E1, E2, E3. cbn [bind]. unfold ts_make. destruct (forallb _ _); [|reflexivity]. cbn [negb table_len]. rewrite M1. unfold rows_in in H. now rewrite H.
Qed.
End Table.
Arguments OCompute {G}.
Arguments OReset {G}.
(** Finding: with one sample and a positive radius the position is stored as an array of one element, not as a number as everywhere else (the time is a number). *)
Theorem C99_one_sample_refuted : forall G (seeded : Z -> G) unit_draws int_draws, unit_spec unit_draws -> int_spec int_draws ->
  forall node o radius io seed s0 r rng s' rng' st' res (st : gs R), tbl o -> has_dot node = false -> os_init seeded node o radius io seed = Ok s0 -> radius_of o radius = Some r -> (0 < r)%R ->
  reachable st -> gs_n st = 1 -> (forall k, ~ fixed_in st node k) -> os_compute unit_draws int_draws s0 st rng = (s', rng', st', res) -> exists ra dec t, reads st' node "ra" (Arr [Atom ra]) /\ reads st' node "dec" (Arr [Atom dec]) /\ reads st' node "time" (Atom t).
Proof.
  intros G seeded unit_draws int_draws HU HI node o radius io seed s0 r rng s' rng' st' res st HT HN EI ER Hr HR H1 NF E.
  destruct (init_ok _ _ _ _ _ _ _ HT EI) as (r' & ER' & _ & (K1 & K2 & K3 & K4)). assert (r' = r) as -> by congruence.
  destruct (os_step unit_draws int_draws HU HI _ _ _ _ _ _ _ _ _ _ _ K1 HR ltac:(now rewrite K2) E) as (T1 & T2 & T3 & T4 & Q).
  destruct Q as [(-> & Q & _)|(rows & ras & decs & ts & v1 & v2 & v3 & -> & L0 & L1 & L2 & FR & Q1 & Q2 & QV & QS & QT & QR & QN & QK & QO)].
  - destruct K1 as (_ & _ & _ & _ & _ & K). rewrite (K4 eq_refl), H1 in Q. lia.
  - rewrite K3 in QV. replace (Rltb 0 r) with true in QV by (symmetry; now apply Rltb_true). destruct QV as [-> ->]. rewrite H1 in *. rewrite K2 in *.
    destruct ras as [|ra [|? ?]]; try discriminate. destruct decs as [|dec [|? ?]]; try discriminate. destruct QS as [(_ & t & -> & ->)|(C & _)]; [|congruence].
    exists ra, dec, t. split; [|split]; apply QK; cbn; auto.
Qed.
(** Finding: declinations are not folded back at the poles and right ascensions not wrapped: a pointing at dec = 89.9 with a radius of 1 can give a declination above 90. *)
Definition ex_tab (ra dec t : R) : obstable := one_obs ra dec t.
Definition ex_ints (m n : nat) (g : nat) : list nat * nat := (repeat 0 n, g).
Lemma ex_ints_spec : int_spec ex_ints.
Proof. intros m n g. cbn [ex_ints fst]. split; [apply repeat_length|]. intros Hm. apply Forall_forall. intros x Hx. apply repeat_spec in Hx. subst. lia. Qed.
(** Numbers that make an offset of half the radius towards the pole. *)
Definition quarter_units (n : nat) (g : nat) : list R * nat := (repeat (1 / 4)%R n, g).
Lemma quarter_spec : unit_spec quarter_units.
Proof. intros n g. cbn [quarter_units fst]. split; [apply repeat_length|]. apply Forall_forall. intros x Hx. apply repeat_spec in Hx. subst. lra. Qed.
Lemma one_nums : forall ra dec t, num_at (one_obs ra dec t) "ra" 0 = Some ra /\ num_at (one_obs ra dec t) "dec" 0 = Some dec /\ num_at (one_obs ra dec t) "time" 0 = Some t.
Proof. intros. repeat split. Qed.
Lemma half_offset : (offset_x 1 (1 / 4) (1 / 4) = 0)%R /\ (offset_y 1 (1 / 4) (1 / 4) = 1 / 2)%R.
Proof.
  unfold offset_x, offset_y. replace (2 * PI * (1 / 4))%R with (PI / 2)%R by field. rewrite cos_PI2, sin_PI2.
  replace (sqrt (1 / 4)) with (1 / 2)%R; [split; lra|]. symmetry. apply sqrt_lem_1; lra.
Qed.
Lemma ex_init : forall ra dec t io, rows_in (one_obs ra dec t) = 1 /\ exists s0, os_init Z.to_nat "pos" (one_obs ra dec t) (Some 1%R) io 0 = Ok s0.
Proof.
  intros. split; [reflexivity|]. unfold os_init. cbn [bind]. replace (Rltb 1 0) with false by (symmetry; apply Rltb_false; lra). cbn. eauto.
Qed.
Theorem C99_range_refuted : exists (s0 s' : onode nat) rng' st' ra dec t d, tbl (ex_tab 10 (899 / 10) 5) /\
  os_init Z.to_nat "pos" (ex_tab 10 (899 / 10) 5) (Some 1%R) false 0 = Ok s0 /\ os_compute quarter_units ex_ints s0 (gs_fresh 1) None = (s', rng', st', Ok [ra; dec; t]) /\
  elems dec = [d] /\ (90 < d)%R.
Proof.
  destruct (ex_init 10 (899 / 10) 5 false) as (RI & s0 & EI). destruct (os_compute quarter_units ex_ints s0 (gs_fresh 1) None) as [[[s' rng'] st'] res] eqn:E.
  assert (RF : reachable (gs_fresh (A := R) 1)) by (exists 1, []; split; [lia|reflexivity]).
  destruct (C99_samples _ _ _ quarter_spec ex_ints_spec "pos" _ _ _ _ s0 [] (gs_fresh 1) None s0 0 s' rng' st' res (one_obs_tbl 10 (899 / 10) 5) eq_refl EI (Forall_nil _) eq_refl RF E)
    as (r & ER & _ & [(C & _)|(_ & rows & ras & decs & ts & v1 & v2 & v3 & -> & E1 & E2 & _ & _ & LR & _ & L2 & _ & ERow & HP & _)]); [discriminate|].
  injection ER as <-. destruct (HP 0 0) as (ra0 & dec0 & t0 & _ & P2 & _ & _ & P5 & _); [rewrite ERow; reflexivity|]. destruct (P5 ltac:(lra) (1 / 4)%R (1 / 4)%R eq_refl eq_refl) as [_ P6].
  assert (D0 : dec0 = (899 / 10)%R) by (cbn in P2; congruence). subst dec0. rewrite (proj2 half_offset) in P6.
  destruct decs as [|d [|? ?]]; try discriminate. cbn in P6. injection P6 as ->. exists s0, s', rng', st', v1, v2, v3. eexists. split; [apply one_obs_tbl|]. split; auto. split; auto. split; [exact E2|]. lra.
Qed.
(** Concrete: two samples around one pointing, in table order there is only one row. *)
Example C99_applies : exists (s0 s' : onode nat) rng' st' v1 v2 v3, os_init Z.to_nat "pos" (ex_tab 10 20 5) (Some 1%R) false 0 = Ok s0 /\
  os_compute quarter_units ex_ints s0 (gs_fresh 2) None = (s', rng', st', Ok [v1; v2; v3]) /\ elems v2 = [41 / 2; 41 / 2]%R /\
  is_observed ref_ball (ex_tab 10 20 5) (QArray (elems v1)) (QArray (elems v2)) (Some 1%R) TNone TNone = Ok (SeenMany [true; true]).
Proof.
  destruct (ex_init 10 20 5 false) as (RI & s0 & EI). destruct (os_compute quarter_units ex_ints s0 (gs_fresh 2) None) as [[[s' rng'] st'] res] eqn:E.
  assert (RF : reachable (gs_fresh (A := R) 2)) by (exists 2, []; split; [lia|reflexivity]).
  destruct (C99_samples _ _ _ quarter_spec ex_ints_spec "pos" _ _ _ _ s0 [] (gs_fresh 2) None s0 0 s' rng' st' res (one_obs_tbl 10 20 5) eq_refl EI (Forall_nil _) eq_refl RF E)
    as (r & ER & _ & [(C & _)|(_ & rows & ras & decs & ts & v1 & v2 & v3 & -> & E1 & E2 & _ & _ & LR & _ & L2 & _ & ERow & HP & _)]); [discriminate|].
  exists s0, s', rng', st', v1, v2, v3. split; auto. split; auto. split.
  - rewrite E2. injection ER as <-. assert (A : forall i, i < 2 -> nth_error decs i = Some (41 / 2)%R).
    { intros i Hi. destruct (HP i 0) as (ra0 & dec0 & t0 & _ & P2 & _ & _ & P5 & _); [rewrite ERow; destruct i as [|[|i]]; try reflexivity; lia|].
      destruct (P5 ltac:(lra) (1 / 4)%R (1 / 4)%R) as [_ P6]; try (destruct i as [|[|i]]; try reflexivity; lia).
      assert (D0 : dec0 = 20%R) by (cbn in P2; congruence). subst dec0. rewrite (proj2 half_offset) in P6. rewrite P6. f_equal. lra. }
    destruct decs as [|a [|b [|? ?]]]; try discriminate. pose proof (A 0 ltac:(lia)) as A0. pose proof (A 1 ltac:(lia)) as A1. cbn in A0, A1. congruence.
  - change [true; true] with (repeat true (gs_n (gs_fresh (A := R) 2))).
    apply (C99_observed Z.to_nat _ _ quarter_spec ex_ints_spec ref_ball "pos" _ _ false 0%Z s0 [] (gs_fresh 2) None s0 0 s' rng' st' v1 v2 v3 1%R ref_ball_spec (one_obs_tbl 10 20 5) eq_refl eq_refl EI (Forall_nil _) eq_refl RF E eq_refl). lra.
Qed.
Print Assumptions C99_samples.
Print Assumptions C99_observed.
