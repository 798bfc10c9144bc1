(** Property C49: the SED basis of a light-curve template model reproduces its band fluxes. *)
From Coq Require Import Reals String List Bool Arith ZArith Lia Lra.
From Verif Require Import Base BaseFacts RealBase PassbandModel PassbandProofs PassbandProps PassbandGroupProps ObsTableModel SedModel SedProps SedPipeline NoiseModel TemplateModel TemplateProps TemplateBands.
Import ListNotations.
Open Scope R_scope.

Lemma getitem_denotes : forall g name p, built g -> pg_getitem g name = Ok p -> denotes g name p.
Proof.
  intros g name p B H. destruct (built_inv g B) as ([K1 K2] & _ & HU). destruct (update_inv _ _ HU) as (_ & _ & EN).
  unfold pg_getitem in H. destruct (dget name (pg_bands g)) as [q|] eqn:E.
  - injection H as <-. apply dget_In in E. rewrite Forall_forall in K2. pose proof (K2 _ E) as X. simpl in X. split; [|left; auto].
    unfold members. apply in_map_iff. exists (name, q). auto.
  - rewrite EN, filter_names_get in H. destruct (with_filter name (pg_bands g)) as [|[k q] l] eqn:W; [discriminate|].
    destruct l as [|x l]; [|simpl in H; discriminate]. simpl in H. destruct (dget k (pg_bands g)) as [q'|] eqn:E2; [|discriminate].
    injection H as <-. assert (IN : In (k, q) (pg_bands g) /\ pb_filter q = name).
    { assert (X : In (k, q) (with_filter name (pg_bands g))) by (rewrite W; left; auto). apply filter_In in X. destruct X as [X Y]. split; auto.
      apply String.eqb_eq in Y. exact Y. }
    destruct IN as [IN FN]. pose proof (In_dget _ _ _ _ K1 IN) as G. rewrite G in E2. injection E2 as <-.
    split; [apply in_map_iff; exists (k, q); auto|]. right. split.
    + unfold members. rewrite (full_names _ K2). now apply dget_None.
    + split; auto. intros p' HP HF. apply in_map_iff in HP. destruct HP as ([k' v] & EE & HP). simpl in EE. subst v.
      assert (X : In (k', p') (with_filter name (pg_bands g))) by (apply filter_In; split; auto; apply String.eqb_eq; auto).
      rewrite W in X. destruct X as [X|[]]. congruence.
Qed.

(** The response of passband [p] to the spectrum [F]. *)
Definition resp (p : passband) (F : R -> R) : R := row_bandflux (pb_table p) (pb_delta p) (map F (pb_waves p)).
Lemma bandflux_resp : forall g name p Fs, built g -> separated (all_waves g) -> denotes g name p -> Fs <> [] ->
  pg_bandflux g (map (fun F => map F (pg_waves g)) Fs) name = Ok (map (resp p) Fs) /\
  fluxes_to_bandflux p (map (fun F => map F (pb_waves p)) Fs) = Ok (map (resp p) Fs).
Proof.
  intros g name p Fs B S D NE. assert (X : fluxes_to_bandflux p (map (fun F => map F (pb_waves p)) Fs) = Ok (map (resp p) Fs)).
  { destruct (built_inv g B) as (K & GB & _). pose proof (proj1 D) as HP. apply in_map_iff in HP. destruct HP as (fb & EF & HP).
    rewrite Forall_forall in GB. pose proof (GB _ HP) as [_ [_ L]]. rewrite EF in L.
    destruct Fs as [|F Fs]; [congruence|]. unfold fluxes_to_bandflux. cbn [map]. rewrite map_length.
    assert (LW : length (pb_waves p) = length (pb_table p)) by (unfold pb_waves, xs; now rewrite map_length).
    destruct (length (pb_waves p) =? 0)%nat eqn:E0; [apply Nat.eqb_eq in E0; lia|]. rewrite Nat.eqb_refl. cbn [negb]. do 2 f_equal.
    rewrite map_map. reflexivity. }
  split; auto. rewrite (C33_short_name g name p _ B D). rewrite C33_bandflux; auto. apply D.
Qed.
Lemma resp_ext : forall p F G, (forall w, In w (pb_waves p) -> F w = G w) -> resp p F = resp p G.
Proof. intros p F G H. unfold resp. f_equal. apply map_ext_in. auto. Qed.
Lemma resp_linear : forall p a b F G, resp p (fun w => a * F w + b * G w) = a * resp p F + b * resp p G.
Proof.
  intros. unfold resp. rewrite <- C30_linear; [| unfold pb_waves, xs; now rewrite !map_length ..]. f_equal.
  unfold rows_comb. induction (pb_waves p) as [|w l IH]; simpl; auto. now rewrite IH.
Qed.
Lemma resp_scale : forall p a F, resp p (fun w => a * F w) = a * resp p F.
Proof. intros. rewrite (resp_ext p _ (fun w => a * F w + 0 * F w)) by (intros; ring). rewrite resp_linear. ring. Qed.
Lemma resp_sum : forall p (c : string -> R) (S : string -> R -> R) L,
  resp p (fun w => Rsum (map (fun f => c f * S f w) L)) = Rsum (map (fun f => c f * resp p (S f)) L).
Proof.
  intros p c S. induction L as [|f L IH]; cbn [map Rsum fold_right].
  - rewrite (resp_ext p _ (fun w => 0 * 0)) by (intros; unfold Rsum; simpl; ring). rewrite (resp_scale p 0 (fun _ => 0)). ring.
  - rewrite (resp_ext p _ (fun w => c f * S f w + 1 * Rsum (map (fun f => c f * S f w) L))) by (intros; unfold Rsum; simpl; ring).
    rewrite resp_linear, IH. unfold Rsum. ring.
Qed.
Lemma resp_zero : forall p F, (forall w y, In (w, y) (pb_table p) -> F w * y = 0) -> resp p F = 0.
Proof.
  intros p F H. unfold resp, row_bandflux. set (t := pb_table p) in *. unfold pb_waves. fold t.
  assert (Z : map (fun a => fst a * snd a) (combine (map F (xs t)) (ys t)) = map (fun _ => 0) t).
  { clearbody t. induction t as [|[w y] t IH]; simpl; auto. rewrite IH by (intros; apply H; right; auto). f_equal. apply H. left; auto. }
  rewrite Z. destruct (pb_delta p); cbv zeta.
  - clear. assert (forall l : table, Rsum (map (fun _ => 0) l) = 0) by (induction l; unfold Rsum in *; simpl; lra). rewrite H.
    assert (hd 0 (map (fun _ : R * R => 0) t) = 0) by (destruct t; auto). rewrite H0.
    assert (last (map (fun _ : R * R => 0) t) 0 = 0). { clear. induction t as [|x t IH]; auto. simpl. destruct (map (fun _ => 0) t); auto. }
    rewrite H1. lra.
  - clear. induction t as [|[x y] [|[x' y'] t] IH]; auto. change (trapz ((x, 0) :: (x', 0) :: combine (xs t) (map (fun _ => 0) t)) = 0).
    rewrite trapz_cons. cbn [fst snd]. change (trapz ((x', 0) :: combine (xs t) (map (fun _ => 0) t)) = 0) in IH. rewrite IH. lra.
Qed.

(** Values given on a grid, as a function of the wavelength. *)
Definition on_grid (grid b : list R) (w : R) : R := nth (ss_left grid w) b 0.
Lemma on_grid_nth : forall grid b k w, increasing grid -> nth_error grid k = Some w -> on_grid grid b w = nth k b 0.
Proof. intros. unfold on_grid. now rewrite (ss_left_nth grid k w). Qed.
Lemma on_grid_map : forall grid b, increasing grid -> length b = length grid -> map (on_grid grid b) grid = b.
Proof.
  intros grid b HI HL. apply nth_ext with (d := 0) (d' := 0); [now rewrite map_length|]. intros k Hk. rewrite map_length in Hk.
  destruct (nth_error grid k) as [w|] eqn:E; [|apply nth_error_None in E; lia].
  apply nth_error_nth. rewrite nth_error_map, E. simpl. f_equal. apply on_grid_nth; auto.
Qed.
Lemma interp_on_grid : forall grid b w, increasing grid -> length b = length grid -> In w grid -> interp (combine grid b) 0 0 w = on_grid grid b w.
Proof.
  intros grid b w HI HL HW. apply In_nth_error in HW. destruct HW as [k E].
  assert (XS : xs (combine grid b) = grid).
  { clear - HL. revert b HL. induction grid as [|a l IH]; intros [|x b] HL; simpl in *; try discriminate; auto. f_equal. apply IH. lia. }
  assert (LB : (k < length b)%nat) by (rewrite HL; apply nth_error_Some; congruence).
  destruct (nth_error b k) as [y|] eqn:EB; [|apply nth_error_None in EB; lia].
  assert (IN : In (w, y) (combine grid b)).
  { apply nth_error_In with k. clear - E EB. revert grid b E EB. induction k as [|k IH]; intros [|a g] [|c b] E EB; simpl in *; try discriminate; auto. congruence. }
  rewrite (on_grid_nth grid b k w HI E). rewrite (nth_error_nth _ _ 0 EB).
  apply (interp_knot (combine grid b) 0 0 (w, y)); [now rewrite XS|auto].
Qed.

(** ** The basis *)
Lemma set_at_ok : forall ix n u, set_at ix n = Ok u -> length u = n /\ forall k, (k < n)%nat -> (nth k u false = true <-> In k ix).
Proof.
  intros ix n u H. unfold set_at in H. destruct (existsb _ ix); [discriminate|]. injection H as <-. split; [now rewrite map_length, seq_length|].
  intros k Hk. rewrite (nth_error_nth _ _ false (x := existsb (Nat.eqb k) ix)).
  - rewrite existsb_exists. split; [intros (x & A & B); apply Nat.eqb_eq in B; now subst|]. intros X. exists k. split; auto. apply Nat.eqb_refl.
  - rewrite nth_error_map. replace (nth_error (seq 0 n) k) with (Some k); auto. symmetry. rewrite (nth_error_nth' _ 0%nat) by now rewrite seq_length.
    now rewrite seq_nth.
Qed.
Lemma mask_list_In : forall (t : table) (f : R * R -> bool) w, In w (mask_list (map f t) (xs t)) <-> exists y, In (w, y) t /\ f (w, y) = true.
Proof.
  induction t as [|[a b] t IH]; intros f w; simpl; [split; [tauto|intros (y & [] & _)]|].
  destruct (f (a, b)) eqn:E; simpl; rewrite IH; split.
  - intros [<-|(y & A & B)]; eauto.
  - intros (y & [X|X] & B); [injection X as <- <-; auto|]. right; eauto.
  - intros (y & A & B); eauto.
  - intros (y & [X|X] & B); [injection X as <- <-; congruence|]. eauto.
Qed.
(** A filter uses the grid points where its passband has a transmission above 1e-5. *)
Lemma used_waves_ok : forall g f u, built g -> separated (all_waves g) -> used_waves g f = Ok u ->
  exists p, denotes g f p /\ length u = length (pg_waves g) /\
    forall k w, nth_error (pg_waves g) k = Some w -> (nth k u false = true <-> exists y, In (w, y) (pb_table p) /\ 1 / 10 ^ 5 < y).
Proof.
  intros g f u B S H. unfold used_waves in H. destruct (pg_getitem g f) as [p|] eqn:E; [|discriminate]. cbn [bind] in H. cbv zeta in H.
  pose proof (getitem_denotes g f p B E) as D. exists p. split; auto. destruct (set_at_ok _ _ _ H) as [L X]. split; auto.
  intros k w Hk. assert (LK : (k < length (pg_waves g))%nat) by (apply nth_error_Some; congruence). rewrite (X k LK), in_map_iff.
  destruct (C33_grid g B S) as [HI HG]. unfold pb_waves. split.
  - intros (w' & A & W). apply mask_list_In in W. destruct W as (y & W1 & W2). simpl in W2. apply Rltb_true in W2.
    assert (IN : In w' (pg_waves g)) by (apply HG; exists p; split; [apply D|]; unfold pb_waves, xs; apply in_map_iff; exists (w', y); auto).
    apply In_nth_error in IN. destruct IN as (k' & Ek'). pose proof (ss_left_nth _ _ _ HI Ek') as Q. assert (k' = k) by congruence. subst k'.
    assert (w' = w) by congruence. subst w'. eauto.
  - intros (y & A & Y). exists w. split; [now apply ss_left_nth|]. apply mask_list_In. exists y. split; auto. simpl. now apply Rltb_true.
Qed.
Lemma all_used_ok : forall g fs l, all_used g fs = Ok l -> map fst l = fs /\ forall f u, In (f, u) l -> used_waves g f = Ok u.
Proof.
  intros g fs l. unfold all_used.
  assert (G : forall fs acc l, (forall f u, In (f, u) acc -> used_waves g f = Ok u) ->
    fold_res (fun acc f => bind (used_waves g f) (fun u => Ok (acc ++ [(f, u)])%list)) acc fs = Ok l ->
    map fst l = (map fst acc ++ fs)%list /\ forall f u, In (f, u) l -> used_waves g f = Ok u).
  { clear. induction fs as [|f fs IH]; intros acc l HA H.
    - simpl in H. injection H as <-. now rewrite app_nil_r.
    - cbn [fold_res] in H. destruct (used_waves g f) as [u|] eqn:E; [|discriminate]. cbn [bind] in H. apply IH in H.
      + destruct H as [A C]. split; auto. rewrite A, map_app. simpl. now rewrite <- app_assoc.
      + intros f' u' IN. apply in_app_or in IN. destruct IN as [IN|[IN|[]]]; auto. congruence. }
  apply (G fs []). intros f u [].
Qed.
(** Wavelengths in a filter's box are used by no other filter. *)
Lemma own_exclusive : forall l f u f' u' k, NoDup (map fst l) -> In (f, u) l -> In (f', u') l -> f <> f' -> (k < length u)%nat ->
  nth k (own_waves l u) false = true -> nth k u false = true /\ nth k u' false = false.
Proof.
  intros l f u f' u' k ND I1 I2 N Hk H. unfold own_waves in H.
  assert (E : nth k (map (fun k => (nth k u false && (count_used l k =? 1)%nat)%bool) (seq 0 (length u))) false = (nth k u false && (count_used l k =? 1)%nat)%bool).
  { apply nth_error_nth. rewrite nth_error_map. replace (nth_error (seq 0 (length u)) k) with (Some k); auto. symmetry.
    rewrite (nth_error_nth' _ 0%nat) by now rewrite seq_length. now rewrite seq_nth. }
  rewrite E in H. apply andb_true_iff in H. destruct H as [H1 H2]. split; auto. apply Nat.eqb_eq in H2.
  destruct (nth k u' false) eqn:E'; auto. exfalso. unfold count_used in H2.
  set (F := filter (fun fu : string * list bool => nth k (snd fu) false) l) in *.
  assert (A : In (f, u) F) by (apply filter_In; auto). assert (C : In (f', u') F) by (apply filter_In; auto).
  destruct F as [|x [|y F]]; try discriminate. destruct A as [A|[]], C as [C|[]]. congruence.
Qed.
Lemma one_basis_inv : forall g l f u b, one_basis g l f u = Ok b -> exists t ts, 0 < t /\
  pg_bandflux g [map (fun b : bool => if b then 1 else 0) (own_waves l u)] f = Ok (t :: ts) /\
  b = map (fun b : bool => (if b then 1 else 0) / t) (own_waves l u).
Proof.
  intros g l f u b H. unfold one_basis in H. cbv zeta in H. destruct (negb _); [discriminate|].
  destruct (pg_bandflux _ _ f) as [[|t ts]|] eqn:E; try discriminate. cbn [bind] in H. destruct (Rleb t 0) eqn:T; [discriminate|]. injection H as <-.
  exists t, ts. split; [now apply Rleb_false|]. split; auto. now rewrite map_map.
Qed.
Lemma basis_fold : forall (F : string -> list bool -> result (list R)) l acc B, NoDup (map fst l) ->
  fold_res (fun acc fu => bind (F (fst fu) (snd fu)) (fun b => Ok (dset (fst fu) b acc))) acc l = Ok B ->
  (forall f u, In (f, u) l -> exists b, F f u = Ok b /\ dget f B = Some b) /\ (forall f, ~ In f (map fst l) -> dget f B = dget f acc).
Proof.
  intros F. induction l as [|[f u] l IH]; intros acc B ND H.
  - simpl in H. injection H as <-. split; auto. intros f u [].
  - inversion ND as [|? ? N1 N2]; subst. cbn [fold_res] in H. destruct (F (fst (f, u)) (snd (f, u))) as [b|] eqn:E; [|discriminate]. cbn [bind fst snd] in *.
    destruct (IH _ _ N2 H) as [A C]. split.
    + intros f' u' [X|X]; [injection X as <- <-|auto]. exists b. split; auto. rewrite C by auto. apply dget_dset_same.
    + intros f' N. rewrite C by (intros X; apply N; right; auto). apply dget_dset_other. intros ->. apply N; left; auto.
Qed.
(** No transmission between 0 and 1e-5. *)
Definition clean (p : passband) : Prop := forall w y, In (w, y) (pb_table p) -> y = 0 \/ 1 / 10 ^ 5 < y.
Definition basis_of (g : pgroup) (B : dict (list R)) (f : string) : R -> R := on_grid (pg_waves g) (match dget f B with Some b => b | None => [] end).
Lemma nth_box : forall t (o : list bool) k, nth k (map (fun b : bool => (if b then 1 else 0) / t) o) 0 = / t * nth k (map (fun b : bool => if b then 1 else 0) o) 0.
Proof. intros t. induction o as [|x o IH]; intros [|k]; simpl; [ring|ring|destruct x; unfold Rdiv; ring|apply IH]. Qed.
Lemma basis_spec : forall g fs B, built g -> separated (all_waves g) -> NoDup fs -> sed_basis g fs = Ok B ->
  (forall f p, In f fs -> denotes g f p -> clean p) ->
  forall f, In f fs -> exists b, dget f B = Some b /\ length b = length (pg_waves g) /\
    forall f' p', In f' fs -> denotes g f' p' -> resp p' (on_grid (pg_waves g) b) = if String.eqb f f' then 1 else 0.
Proof.
  intros g fs B BU S ND H CL f Hf. destruct (C33_grid g BU S) as [HI HG].
  unfold sed_basis in H. destruct (all_used g fs) as [l|] eqn:EU; [|discriminate]. cbn [bind] in H. destruct (all_used_ok _ _ _ EU) as [ML UL].
  assert (NDl : NoDup (map fst l)) by now rewrite ML. destruct (basis_fold _ _ _ _ NDl H) as [HB _].
  rewrite <- ML in Hf. apply in_map_iff in Hf. destruct Hf as ([f0 u] & EF & Hf). simpl in EF. subst f0.
  destruct (HB f u Hf) as (b & OB & DB). exists b. split; auto. destruct (one_basis_inv _ _ _ _ _ OB) as (t & ts & Ht & FL & EB).
  destruct (used_waves_ok g f u BU S (UL _ _ Hf)) as (p & DP & LU & US).
  assert (LO : length (own_waves l u) = length (pg_waves g)) by (unfold own_waves; now rewrite map_length, seq_length).
  assert (LB : length b = length (pg_waves g)) by (rewrite EB, map_length; auto). split; auto.
  set (box := map (fun b : bool => if b then 1 else 0) (own_waves l u)) in *.
  assert (LX : length box = length (pg_waves g)) by (unfold box; now rewrite map_length).
  assert (EBX : forall w, on_grid (pg_waves g) b w = / t * on_grid (pg_waves g) box w).
  { intros w. unfold on_grid. rewrite EB. unfold box. apply nth_box. }
  intros f' p' Hf' D'. rewrite (resp_ext p' _ (fun w => / t * on_grid (pg_waves g) box w)) by auto. rewrite resp_scale.
  destruct (String.eqb f f') eqn:EQ.
  - apply String.eqb_eq in EQ. subst f'. assert (p' = p).
    { destruct D' as [A1 A2], DP as [B1 B2]. destruct A2 as [A2|(A2 & A3 & A4)], B2 as [B2|(B2 & B3 & B4)].
      - destruct (built_inv g BU) as (K & _ & _). pose proof (keyed_get _ _ K A1). pose proof (keyed_get _ _ K B1). congruence.
      - exfalso. apply B2. rewrite <- A2. apply in_map. auto.
      - exfalso. apply A2. rewrite <- B2. apply in_map. auto.
      - symmetry. apply A4; auto. }
    subst p'. destruct (bandflux_resp g f p [on_grid (pg_waves g) box] BU S DP) as [Q _]; [discriminate|]. cbn [map] in Q.
    rewrite (on_grid_map _ _ HI LX) in Q. rewrite FL in Q. injection Q as Q _. rewrite <- Q. field. lra.
  - apply String.eqb_neq in EQ. rewrite resp_zero; [ring|]. intros w y HW.
    assert (IN : In w (pg_waves g)) by (apply HG; exists p'; split; [apply D'|]; unfold pb_waves, xs; apply in_map_iff; exists (w, y); auto).
    apply In_nth_error in IN. destruct IN as (k & Ek). rewrite (on_grid_nth _ _ k w HI Ek).
    assert (LK : (k < length u)%nat) by (rewrite LU; apply nth_error_Some; congruence).
    destruct (nth k (own_waves l u) false) eqn:OW.
    + rewrite <- ML in Hf'. apply in_map_iff in Hf'. destruct Hf' as ([f0 u'] & EF & Hf'). simpl in EF. subst f0.
      destruct (own_exclusive l f u f' u' k NDl Hf Hf' EQ LK OW) as [_ NU].
      destruct (used_waves_ok g f' u' BU S (UL _ _ Hf')) as (p2 & D2 & _ & US2).
      assert (In f' fs) by (rewrite <- ML; apply in_map_iff; exists (f', u'); auto).
      destruct (CL f' p' H0 D' w y HW) as [-> |Y]; [ring|]. exfalso.
      assert (nth k u' false = true); [|congruence]. apply (US2 k w Ek).
      assert (p2 = p').
      { destruct D' as [A1 A2], D2 as [B1 B2]. destruct A2 as [A2|(A2 & A3 & A4)], B2 as [B2|(B2 & B3 & B4)].
        - destruct (built_inv g BU) as (K & _ & _). pose proof (keyed_get _ _ K A1). pose proof (keyed_get _ _ K B1). congruence.
        - exfalso. apply B2. rewrite <- A2. apply in_map. auto.
        - exfalso. apply A2. rewrite <- B2. apply in_map. auto.
        - apply A4; auto. }
      subst p2. eauto.
    + unfold box. assert (Z : nth k (map (fun b : bool => if b then 1 else 0) (own_waves l u)) 0 = 0).
      { clear - OW. revert k OW. induction (own_waves l u) as [|x o IH]; intros [|k] H; simpl in *; auto. now rewrite H. }
      rewrite Z. ring.
Qed.
(** Each basis function has band flux 1 in its own filter and 0 in all others. *)
Theorem C49_basis : forall g fs B, built g -> separated (all_waves g) -> NoDup fs -> sed_basis g fs = Ok B ->
  (forall f p, In f fs -> denotes g f p -> clean p) ->
  forall f f', In f fs -> In f' fs -> exists b, dget f B = Some b /\ length b = length (pg_waves g) /\
    pg_bandflux g [b] f' = Ok [if String.eqb f f' then 1 else 0].
Proof.
  intros g fs B BU S ND H CL f f' Hf Hf'. destruct (C33_grid g BU S) as [HI HG].
  destruct (basis_spec g fs B BU S ND H CL f Hf) as (b & DB & LB & R). exists b. split; auto. split; auto.
  assert (D' : exists p', denotes g f' p').
  { unfold sed_basis in H. destruct (all_used g fs) as [l|] eqn:EU; [|discriminate]. destruct (all_used_ok _ _ _ EU) as [ML UL].
    rewrite <- ML in Hf'. apply in_map_iff in Hf'. destruct Hf' as ([f0 u] & EF & Hf'). simpl in EF. subst f0.
    destruct (used_waves_ok g f' u BU S (UL _ _ Hf')) as (p & D & _). eauto. }
  destruct D' as (p' & D'). destruct (bandflux_resp g f' p' [on_grid (pg_waves g) b] BU S D') as [Q _]; [discriminate|].
  cbn [map] in Q. rewrite (on_grid_map _ _ HI LB) in Q. rewrite Q. do 2 f_equal. apply R; auto.
Qed.

(** ** The template's SED *)
Lemma outer_mat : forall ts ws F (a s : R -> R), madd (mat ts ws F) (outer (map a ts) (map s ws)) = mat ts ws (fun t w => F t w + a t * s w).
Proof.
  intros. unfold madd, outer, mat. induction ts as [|t ts IH]; simpl; auto. rewrite IH. f_equal.
  clear IH. induction ws as [|w ws IH]; simpl; auto. now rewrite IH.
Qed.
Lemma lc_fold : forall tp lc g (v : string -> R -> R) ts t0 ws L F, increasing (pg_waves g) -> tp_waves tp = pg_waves g ->
  (forall w, In w ws -> In w (pg_waves g)) ->
  (forall f, In f L -> (exists b, dget f (tp_basis tp) = Some b /\ length b = length (pg_waves g)) /\ lc_evaluate lc (map (fun t => t - t0) ts) f = Ok (map (v f) (map (fun t => t - t0) ts))) ->
  fold_res (fun acc f => match dget f (tp_basis tp) with
    | None => Err KeyError
    | Some b => let sed := map (interp (combine (tp_waves tp) b) 0 0) ws in
        bind (lc_evaluate lc (map (fun t => t - t0) ts) f) (fun mult => Ok (madd acc (outer mult sed)))
    end) (mat ts ws F) L
  = Ok (mat ts ws (fun t w => F t w + Rsum (map (fun f => v f (t - t0) * basis_of g (tp_basis tp) f w) L))).
Proof.
  intros tp lc g v ts t0 ws L. induction L as [|f L IH]; intros F HI HT HW HL.
  - simpl. f_equal. apply mat_ext. intros. unfold Rsum; simpl. ring.
  - cbn [fold_res]. destruct (HL f (or_introl eq_refl)) as [(b & DB & LB) EV]. rewrite DB, EV. cbn [bind]. cbv zeta.
    assert (E : madd (mat ts ws F) (outer (map (v f) (map (fun t => t - t0) ts)) (map (interp (combine (tp_waves tp) b) 0 0) ws))
      = mat ts ws (fun t w => F t w + v f (t - t0) * basis_of g (tp_basis tp) f w)).
    { rewrite map_map, outer_mat. unfold mat. apply map_ext. intros t. apply map_ext_in. intros w Hw. unfold basis_of. rewrite DB, HT, interp_on_grid; auto. }
    rewrite E. rewrite IH; auto.
    + f_equal. apply mat_ext. intros. unfold Rsum; simpl. ring.
    + intros. apply HL. right; auto.
Qed.

(** The SED of a template model, evaluated on the group's wavelengths (or on those of one band), has in each of its filters
    exactly the band fluxes of the template's light curve. *)
Theorem C49_template : forall g node setters i t0 periodic mags baseline lc b' tp (st : gst) (ps : params) mt0 ts,
  built g -> separated (all_waves g) -> make_lc i t0 periodic mags baseline = Ok (lc, b') -> NoDup (lc_filters lc) ->
  make_template node setters g (lc_filters lc) = Ok tp ->
  (forall f p, In f (lc_filters lc) -> denotes g f p -> clean p) ->
  dget node st = Some ps -> dget "t0" ps = Some (PNum mt0) -> ts <> [] ->
  exists m, lc_sed tp lc ts (pg_waves g) st = Ok m /\
    forall f, In f (lc_filters lc) -> exists fluxes, lc_bands node lc ts (map (fun _ => f) ts) st = Ok fluxes /\
      pg_bandflux g m f = Ok fluxes /\
      forall p m', denotes g f p -> lc_sed tp lc ts (pb_waves p) st = Ok m' -> fluxes_to_bandflux p m' = Ok fluxes.
Proof.
  intros g node setters i t0 periodic mags baseline lc b' tp st ps mt0 ts BU S HM ND HT CL HP HT0 NE.
  destruct (C33_grid g BU S) as [HI HG].
  unfold make_template in HT. destruct (negb _) eqn:KN; [discriminate|]. destruct (sed_basis g (lc_filters lc)) as [B|] eqn:EB; [|discriminate]. cbn [bind] in HT.
  assert (TP : tp = mkTpl node setters (pg_waves g) B) by (destruct (dget "t0" setters) as [[]|]; try discriminate; congruence). clear HT.
  assert (V : exists v : string -> R -> R, forall f ts, In f (lc_filters lc) -> lc_evaluate lc ts f = Ok (map (v f) ts)).
  { exists (fun f t => match lc_evaluate lc [t] f with Ok [x] => x | _ => 0 end). intros f qs Hf.
    assert (D : data_of i f <> None) by (apply (proj1 (known_filter _ _ _ _ _ _ _ f HM)); apply dmem_true; exact Hf).
    destruct (made_pointwise _ _ _ _ _ _ _ f HM D) as (v & EV). rewrite EV. f_equal. apply map_ext. intros q. rewrite EV. reflexivity. }
  destruct V as (v & V).
  set (F := fun t w => Rsum (map (fun f => v f (t - mt0) * basis_of g B f w) (lc_filters lc))).
  assert (BS := basis_spec g (lc_filters lc) B BU S ND EB CL).
  assert (LS : forall ws, (forall w, In w ws -> In w (pg_waves g)) -> lc_sed tp lc ts ws st = Ok (mat ts ws F)).
  { intros ws HW. unfold lc_sed, local_params. rewrite TP. cbn [tp_node]. rewrite HP. cbn [bind]. unfold need. rewrite HT0. cbn [bind].
    assert (Z : zeros (length ts) (length ws) = mat ts ws (fun _ _ => 0)).
    { unfold zeros, mat. rewrite (repeat_map _ _ 0 ws). apply repeat_map. }
    rewrite Z. pose proof (lc_fold tp lc g v ts mt0 ws (lc_filters lc) (fun _ _ => 0) HI) as X. rewrite TP in X. cbn [tp_waves tp_basis] in X |- *.
    rewrite X; auto.
    - f_equal. apply mat_ext. intros. unfold F. ring.
    - intros f Hf. destruct (BS f Hf) as (b & DB & LB & _). split; [eauto|]. apply V; auto. }
  exists (mat ts (pg_waves g) F). split; [apply LS; auto|].
  intros f Hf.
  assert (BAND : lc_bands node lc ts (map (fun _ => f) ts) st = Ok (map (fun t => v f (t - mt0)) ts)).
  { destruct (C48_template_entries i t0 periodic mags baseline lc b' node ts (map (fun _ => f) ts) st ps mt0 HM HP HT0) as (out & E1 & E2 & E3).
    - now rewrite map_length.
    - intros f0 H0. apply in_map_iff in H0. destruct H0 as (_ & <- & _). apply (proj1 (known_filter _ _ _ _ _ _ _ f HM)). apply dmem_true. exact Hf.
    - rewrite E1. f_equal. apply nth_ext with (d := 0) (d' := 0); [now rewrite map_length|]. intros k Hk.
      destruct (nth_error ts k) as [t|] eqn:Et; [|apply nth_error_None in Et; lia].
      destruct (E3 k t f Et) as (x & X1 & X2). { rewrite nth_error_map, Et. reflexivity. }
      rewrite (nth_error_nth _ _ 0 X1). symmetry. apply nth_error_nth. rewrite nth_error_map, Et. simpl. f_equal.
      unfold flux_at in X2. rewrite V in X2 by auto. simpl in X2. congruence. }
  exists (map (fun t => v f (t - mt0)) ts). split; auto.
  assert (RS : forall p t, denotes g f p -> resp p (F t) = v f (t - mt0)).
  { intros p t D. unfold F. rewrite resp_sum.
    assert (G : forall L, NoDup L -> (forall x, In x L -> In x (lc_filters lc)) ->
      Rsum (map (fun f0 => v f0 (t - mt0) * resp p (basis_of g B f0)) L) = if in_dec String.string_dec f L then v f (t - mt0) else 0).
    { induction L as [|x L IHL]; intros NL SL; [reflexivity|]. inversion NL as [|? ? N1 N2]; subst.
      cbn [map Rsum fold_right]. unfold Rsum in IHL. rewrite IHL by (auto; intros; apply SL; right; auto).
      destruct (BS x (SL x (or_introl eq_refl))) as (b & DB & LB & R). unfold basis_of. rewrite DB. rewrite (R f p Hf D).
      destruct (String.eqb x f) eqn:XE.
      - apply String.eqb_eq in XE. subst x. destruct (in_dec String.string_dec f L); [contradiction|].
        destruct (in_dec String.string_dec f (f :: L)) as [|N]; [ring|]. exfalso. apply N. left; auto.
      - apply String.eqb_neq in XE. destruct (in_dec String.string_dec f L), (in_dec String.string_dec f (x :: L)) as [|]; try ring.
        + exfalso. apply n. right; auto.
        + exfalso. destruct i0; auto. }
    rewrite G by auto. destruct (in_dec String.string_dec f (lc_filters lc)); [auto|contradiction]. }
  assert (MM : forall ws, mat ts ws F = map (fun F => map F ws) (map F ts)) by (intros; unfold mat; now rewrite map_map).
  assert (NE' : map F ts <> []) by (destruct ts; [congruence|discriminate]).
  split.
  - assert (D : exists p, denotes g f p).
    { unfold sed_basis in EB. destruct (all_used g (lc_filters lc)) as [l|] eqn:EU; [|discriminate]. destruct (all_used_ok _ _ _ EU) as [ML UL].
      rewrite <- ML in Hf. apply in_map_iff in Hf. destruct Hf as ([f0 u] & EF & Hf'). simpl in EF. subst f0.
      destruct (used_waves_ok g f u BU S (UL _ _ Hf')) as (p & D & _). eauto. }
    destruct D as (p & D). rewrite MM. destruct (bandflux_resp g f p (map F ts) BU S D NE') as [Q _]. rewrite Q. f_equal.
    rewrite map_map. apply map_ext. intros t. apply RS; auto.
  - intros p m' D HM'. rewrite LS in HM'.
    + injection HM' as <-. rewrite MM. destruct (bandflux_resp g f p (map F ts) BU S D NE') as [_ Q]. rewrite Q. f_equal.
      rewrite map_map. apply map_ext. intros t. apply RS; auto.
    + intros w Hw. apply HG. exists p. split; auto. apply D.
Qed.

(** ** When the basis exists *)
Lemma resp_pos : forall p F, increasing (pb_waves p) -> (2 <= length (pb_table p))%nat -> (forall d, pb_delta p = Some d -> 0 < d) ->
  (forall w y, In (w, y) (pb_table p) -> 0 <= F w * y) -> (exists w y, In (w, y) (pb_table p) /\ 0 < F w * y) -> 0 < resp p F.
Proof.
  intros p F HI HL HD HN (w & y & HW & HP). unfold resp, row_bandflux, pb_waves in *. set (t := pb_table p) in *. clearbody t.
  assert (E : map (fun a => fst a * snd a) (combine (map F (xs t)) (ys t)) = map (fun q => F (fst q) * snd q) t).
  { clear. induction t as [|[w y] t IH]; simpl; auto. now rewrite IH. }
  rewrite E. set (it := map (fun q => F (fst q) * snd q) t).
  assert (NN : Forall (fun x => 0 <= x) it) by (apply Forall_forall; intros x Hx; apply in_map_iff in Hx; destruct Hx as ([a b] & <- & Hx); apply (HN a b); auto).
  assert (PP : exists x, In x it /\ 0 < x) by (exists (F w * y); split; auto; apply in_map_iff; exists (w, y); auto).
  assert (LI : length it = length t) by (unfold it; now rewrite map_length).
  destruct (pb_delta p) as [d|] eqn:ED.
  - apply Rmult_lt_0_compat; [|apply HD; auto]. clear - NN PP LI HL. destruct PP as (x & PP & Hx).
    fold (halves it). assert (L2 : (2 <= length it)%nat) by lia. clear HL LI. induction it as [|a [|b l] IH]; try (simpl in L2; lia).
    rewrite halves_cons. inversion NN as [|? ? N1 N2]; subst. inversion N2 as [|? ? N3 N4]; subst.
    assert (G : 0 <= halves (b :: l)).
    { clear - N2. induction l as [|c l IH] in b, N2 |- *; [unfold halves; simpl; lra|]. rewrite halves_cons.
      inversion N2 as [|? ? A B]; subst. inversion B as [|? ? C D]; subst. specialize (IH c B). lra. }
    destruct PP as [<-|[<-|PP]]; try lra.
    destruct l as [|c l]; [destruct PP|]. assert (0 < halves (b :: c :: l)) by (apply IH; auto; [right; auto|simpl; lia]). lra.
  - assert (XE : xs (combine (xs t) it) = xs t).
    { unfold it. clear. induction t as [|[a b] t IH]; simpl; auto. f_equal. exact IH. }
    apply trapz_pos.
    + now rewrite XE.
    + apply Forall_forall. intros [a b] Hab. apply in_combine_r in Hab. rewrite Forall_forall in NN. apply NN. exact Hab.
    + rewrite combine_length. unfold xs. rewrite map_length. lia.
    + apply Exists_exists. exists (w, F w * y). split; auto. unfold it. clear - HW. induction t as [|[a b] t IH]; [destruct HW|].
      destruct HW as [HW|HW]; [injection HW as -> ->; left; reflexivity|right; apply IH; auto].
Qed.
Lemma denotes_unique : forall g f p p', built g -> denotes g f p -> denotes g f p' -> p = p'.
Proof.
  intros g f p p' BU [A1 A2] [B1 B2]. destruct A2 as [A2|(A2 & A3 & A4)], B2 as [B2|(B2 & B3 & B4)].
  - destruct (built_inv g BU) as (K & _ & _). pose proof (keyed_get _ _ K A1). pose proof (keyed_get _ _ K B1). congruence.
  - exfalso. apply B2. rewrite <- A2. apply in_map. auto.
  - exfalso. apply A2. rewrite <- B2. apply in_map. auto.
  - symmetry. apply A4; auto.
Qed.
Lemma used_waves_defined : forall g f p, built g -> separated (all_waves g) -> denotes g f p -> exists u, used_waves g f = Ok u.
Proof.
  intros g f p B S D. unfold used_waves. rewrite (proj1 (C32_getitem g f B) p D). cbn [bind]. cbv zeta.
  destruct (C33_grid g B S) as [HI HG]. unfold set_at. destruct (existsb _ _) eqn:E; [|eauto]. exfalso.
  apply existsb_exists in E. destruct E as (k & A & C). apply Nat.leb_le in C. apply in_map_iff in A. destruct A as (w & <- & W).
  apply mask_list_In in W. destruct W as (y & W & _).
  assert (IN : In w (pg_waves g)) by (apply HG; exists p; split; [apply D|]; unfold pb_waves, xs; apply in_map_iff; exists (w, y); auto).
  apply In_nth_error in IN. destruct IN as (k & Ek). rewrite (ss_left_nth _ _ _ HI Ek) in C.
  assert ((k < length (pg_waves g))%nat) by (apply nth_error_Some; congruence). lia.
Qed.
Lemma all_used_defined : forall g fs, built g -> separated (all_waves g) -> (forall f, In f fs -> exists p, denotes g f p) -> exists l, all_used g fs = Ok l.
Proof.
  intros g fs B S HF. unfold all_used.
  assert (G : forall fs acc, (forall f, In f fs -> exists p, denotes g f p) ->
    exists l, fold_res (fun acc f => bind (used_waves g f) (fun u => Ok (acc ++ [(f, u)])%list)) acc fs = Ok l).
  { clear HF fs. induction fs as [|f fs IH]; intros acc H; [eexists; reflexivity|].
    cbn [fold_res]. destruct (H f (or_introl eq_refl)) as (p & D). destruct (used_waves_defined g f p B S D) as (u & ->). cbn [bind]. apply IH. intros; apply H; right; auto. }
  apply G; auto.
Qed.
Lemma own_unique : forall l f u k, NoDup (map fst l) -> In (f, u) l -> (k < length u)%nat -> nth k u false = true ->
  (forall f' u', In (f', u') l -> f' <> f -> nth k u' false = false) -> nth k (own_waves l u) false = true.
Proof.
  intros l f u k ND I Hk HU HO. unfold own_waves.
  assert (E : nth k (map (fun k => (nth k u false && (count_used l k =? 1)%nat)%bool) (seq 0 (length u))) false = (nth k u false && (count_used l k =? 1)%nat)%bool).
  { apply nth_error_nth. rewrite nth_error_map. replace (nth_error (seq 0 (length u)) k) with (Some k); auto. symmetry.
    rewrite (nth_error_nth' _ 0%nat) by now rewrite seq_length. now rewrite seq_nth. }
  rewrite E, HU. cbn [andb]. apply Nat.eqb_eq. unfold count_used. clear E.
  assert (NL : NoDup l) by (eapply NoDup_map_inv; eauto). pose proof (NoDup_filter (fun fu : string * list bool => nth k (snd fu) false) NL) as NF.
  set (F := filter (fun fu : string * list bool => nth k (snd fu) false) l) in *.
  assert (A : In (f, u) F) by (apply filter_In; auto).
  assert (C : forall x, In x F -> x = (f, u)).
  { intros [f' u'] X. apply filter_In in X. destruct X as [X Y]. simpl in Y. destruct (String.string_dec f' f) as [-> |N].
    - f_equal. pose proof (In_dget _ _ _ _ ND X). pose proof (In_dget _ _ _ _ ND I). congruence.
    - rewrite (HO f' u' X N) in Y. discriminate. }
  destruct F as [|x [|y F]]; [destruct A|reflexivity|]. exfalso. rewrite (C x (or_introl eq_refl)), (C y (or_intror (or_introl eq_refl))) in NF.
  inversion NF as [|? ? N _]; subst. apply N. left; auto.
Qed.
(** [w] is a wavelength that only filter [f] of [fs] uses. *)
Definition own_wave (g : pgroup) (fs : list string) (f : string) (w : R) : Prop :=
  (exists p y, denotes g f p /\ In (w, y) (pb_table p) /\ 1 / 10 ^ 5 < y) /\
  forall f' p' y', In f' fs -> f' <> f -> denotes g f' p' -> In (w, y') (pb_table p') -> y' <= 1 / 10 ^ 5.
Lemma own_wave_iff : forall g fs l f u, built g -> separated (all_waves g) -> NoDup fs -> all_used g fs = Ok l -> In (f, u) l ->
  (existsb (fun b => b) (own_waves l u) = true <-> exists w, own_wave g fs f w).
Proof.
  intros g fs l f u BU S ND EU Hf. destruct (C33_grid g BU S) as [HI HG]. destruct (all_used_ok _ _ _ EU) as [ML UL].
  assert (NDl : NoDup (map fst l)) by now rewrite ML. destruct (used_waves_ok g f u BU S (UL _ _ Hf)) as (p & DP & LU & US). split.
  - intros H. apply existsb_exists in H. destruct H as (b & A & ->). apply (In_nth _ _ false) in A. destruct A as (k & Lk & Ek).
    assert (LO : length (own_waves l u) = length u) by (unfold own_waves; now rewrite map_length, seq_length). rewrite LO in Lk.
    destruct (nth_error (pg_waves g) k) as [w|] eqn:Ew; [|apply nth_error_None in Ew; lia]. exists w.
    assert (N1 : nth k u false = true).
    { revert Ek. unfold own_waves. intros E. assert (X : nth k (map (fun k => (nth k u false && (count_used l k =? 1)%nat)%bool) (seq 0 (length u))) false = (nth k u false && (count_used l k =? 1)%nat)%bool).
      { apply nth_error_nth. rewrite nth_error_map. replace (nth_error (seq 0 (length u)) k) with (Some k); auto. symmetry.
        rewrite (nth_error_nth' _ 0%nat) by now rewrite seq_length. now rewrite seq_nth. }
      rewrite X in E. apply andb_true_iff in E. apply E. }
    split.
    + apply (US k w Ew) in N1. destruct N1 as (y & Y1 & Y2). exists p, y. auto.
    + intros f' p' y' Hf' NE D' HW. rewrite <- ML in Hf'. apply in_map_iff in Hf'. destruct Hf' as ([f0 u'] & EF & Hf'). simpl in EF. subst f0.
      destruct (own_exclusive l f u f' u' k NDl Hf Hf' (not_eq_sym NE) Lk Ek) as [_ N2].
      destruct (used_waves_ok g f' u' BU S (UL _ _ Hf')) as (p2 & D2 & _ & US2). assert (p2 = p') by (eapply denotes_unique; eauto). subst p2.
      apply Rnot_lt_le. intros Y. assert (nth k u' false = true); [|congruence]. apply (US2 k w Ew). eauto.
  - intros (w & (p0 & y & D0 & HW & HY) & HO). assert (p0 = p) by (eapply denotes_unique; eauto). subst p0.
    assert (IN : In w (pg_waves g)) by (apply HG; exists p; split; [apply DP|]; unfold pb_waves, xs; apply in_map_iff; exists (w, y); auto).
    apply In_nth_error in IN. destruct IN as (k & Ek). assert (LK : (k < length u)%nat) by (rewrite LU; apply nth_error_Some; congruence).
    assert (N1 : nth k u false = true) by (apply (US k w Ek); eauto).
    apply existsb_exists. exists true. split; auto.
    rewrite <- (own_unique l f u k NDl Hf LK N1).
    + apply nth_In. unfold own_waves. now rewrite map_length, seq_length.
    + intros f' u' Hf' NE. destruct (nth k u' false) eqn:E; auto. exfalso.
      destruct (used_waves_ok g f' u' BU S (UL _ _ Hf')) as (p2 & D2 & _ & US2). apply (US2 k w Ek) in E. destruct E as (y' & Y1 & Y2).
      assert (In f' fs) by (rewrite <- ML; apply in_map_iff; exists (f', u'); auto). specialize (HO f' p2 y' H NE D2 Y1). lra.
Qed.
(** Construction succeeds exactly when every filter has a wavelength of its own, and raises ValueError otherwise. *)
Theorem C49_defined : forall g fs, built g -> separated (all_waves g) -> NoDup fs ->
  (forall f, In f fs -> exists p, denotes g f p /\ (forall w y, In (w, y) (pb_table p) -> 0 <= y) /\ (forall d, pb_delta p = Some d -> 0 < d)) ->
  ((forall f, In f fs -> exists w, own_wave g fs f w) -> exists B, sed_basis g fs = Ok B) /\
  ((exists f, In f fs /\ forall w, ~ own_wave g fs f w) -> sed_basis g fs = Err ValueError).
Proof.
  intros g fs BU S ND HF. destruct (C33_grid g BU S) as [HI HG].
  destruct (all_used_defined g fs BU S) as (l & EU). { intros f Hf. destruct (HF f Hf) as (p & D & _). eauto. }
  destruct (all_used_ok _ _ _ EU) as [ML UL]. assert (NDl : NoDup (map fst l)) by now rewrite ML.
  unfold sed_basis. rewrite EU. cbn [bind].
  assert (ONE : forall f u, In (f, u) l -> ((exists w, own_wave g fs f w) -> exists b, one_basis g l f u = Ok b) /\ (~ (exists w, own_wave g fs f w) -> one_basis g l f u = Err ValueError)).
  { intros f u Hf. pose proof (own_wave_iff g fs l f u BU S ND EU Hf) as OW. unfold one_basis. cbv zeta. split.
    - intros W. apply OW in W. pose proof W as W0. rewrite W. cbn [negb].
      assert (Hf' : In f fs) by (rewrite <- ML; apply in_map_iff; exists (f, u); auto). destruct (HF f Hf') as (p & D & NN & DD).
      set (box := map (fun b : bool => if b then 1 else 0) (own_waves l u)).
      destruct (used_waves_ok g f u BU S (UL _ _ Hf)) as (p2 & D2 & LU & US). assert (p2 = p) by (eapply denotes_unique; eauto). subst p2.
      assert (LX : length box = length (pg_waves g)) by (unfold box, own_waves; now rewrite !map_length, seq_length).
      destruct (bandflux_resp g f p [on_grid (pg_waves g) box] BU S D) as [Q _]; [discriminate|]. cbn [map] in Q. rewrite (on_grid_map _ _ HI LX) in Q.
      rewrite Q. cbn [bind]. replace (Rleb (resp p (on_grid (pg_waves g) box)) 0) with false; [eauto|]. symmetry. apply Rleb_false.
      assert (BX : forall k, nth k box 0 = if nth k (own_waves l u) false then 1 else 0).
      { unfold box. clear. induction (own_waves l u) as [|x o IH]; intros [|k]; simpl; auto. }
      destruct (built_inv g BU) as (_ & GB & _). pose proof (proj1 D) as HP. apply in_map_iff in HP. destruct HP as (fb & EF & HP).
      rewrite Forall_forall in GB. pose proof (GB _ HP) as [_ [IW L2]]. rewrite EF in IW, L2.
      apply resp_pos; auto.
      + intros w y HW. apply Rmult_le_pos; [|eapply NN; eauto]. unfold on_grid. rewrite BX. destruct (nth _ (own_waves l u) false); lra.
      + apply existsb_exists in W0. destruct W0 as (b & A & ->). apply (In_nth _ _ false) in A. destruct A as (k & Lk & Ek).
        assert (LO : length (own_waves l u) = length u) by (unfold own_waves; now rewrite map_length, seq_length). rewrite LO in Lk.
        destruct (nth_error (pg_waves g) k) as [w|] eqn:Ew; [|apply nth_error_None in Ew; lia].
        assert (N1 : nth k u false = true).
        { revert Ek. unfold own_waves. intros E. assert (X : nth k (map (fun k => (nth k u false && (count_used l k =? 1)%nat)%bool) (seq 0 (length u))) false = (nth k u false && (count_used l k =? 1)%nat)%bool).
          { apply nth_error_nth. rewrite nth_error_map. replace (nth_error (seq 0 (length u)) k) with (Some k); auto. symmetry.
            rewrite (nth_error_nth' _ 0%nat) by now rewrite seq_length. now rewrite seq_nth. }
          rewrite X in E. apply andb_true_iff in E. apply E. }
        apply (US k w Ew) in N1. destruct N1 as (y & Y1 & Y2). exists w, y. split; auto.
        rewrite (on_grid_nth _ _ k w HI Ew), BX, Ek. assert (0 < 1 / 10 ^ 5) by (apply Rdiv_lt_0_compat; [lra|apply pow_lt; lra]). lra.
    - intros N. destruct (existsb (fun b => b) (own_waves l u)) eqn:E; auto. exfalso. apply N. apply OW. reflexivity. }
  split.
  - intros H. assert (G : forall l' acc, (forall x, In x l' -> In x l) -> exists B, fold_res (fun acc fu => bind (one_basis g l (fst fu) (snd fu)) (fun b => Ok (dset (fst fu) b acc))) acc l' = Ok B).
    { induction l' as [|[f u] l' IH]; intros acc SL; [eexists; reflexivity|]. cbn [fold_res fst snd].
      destruct (proj1 (ONE f u (SL _ (or_introl eq_refl)))) as (b & ->).
      - apply H. rewrite <- ML. apply in_map_iff. exists (f, u). split; auto. apply SL. left; auto.
      - cbn [bind]. apply IH. intros; apply SL; right; auto. }
    apply G. auto.
  - intros (f & Hf & N). rewrite <- ML in Hf. apply in_map_iff in Hf. destruct Hf as ([f0 u] & EF & Hf). simpl in EF. subst f0.
    assert (G : forall l' acc, (forall x, In x l' -> In x l) -> In (f, u) l' -> fold_res (fun acc fu => bind (one_basis g l (fst fu) (snd fu)) (fun b => Ok (dset (fst fu) b acc))) acc l' = Err ValueError).
    { induction l' as [|[f' u'] l' IH]; intros acc SL IN; [destruct IN|]. cbn [fold_res fst snd].
      destruct (ONE f' u' (SL _ (or_introl eq_refl))) as [O1 O2].
      destruct (existsb (fun b => b) (own_waves l u')) eqn:E.
      - pose proof (proj1 (own_wave_iff g fs l f' u' BU S ND EU (SL _ (or_introl eq_refl))) E) as W. destruct (O1 W) as (b & ->). cbn [bind].
        apply IH; [intros; apply SL; right; auto|]. destruct IN as [IN|IN]; auto. exfalso. injection IN as -> ->. destruct W as (w & W). apply (N w W).
      - rewrite O2; auto. intros W. apply (own_wave_iff g fs l f' u' BU S ND EU (SL _ (or_introl eq_refl))) in W. congruence. }
    apply G; auto.
Qed.

(** ** Cases *)
Lemma made_table : forall t s f p, pb_make t s f None None Angstrom = Ok p ->
  pb_survey p = s /\ pb_filter p = f /\ pb_delta p = None /\ pb_waves p = xs t /\
  pb_table p = map (fun q => (fst q, snd q / fst q / trapz (numerators t))) t.
Proof.
  intros t s f p E. unfold pb_make in E. destruct (validate t Angstrom) as [t0|] eqn:V; [|discriminate].
  unfold validate in V. destruct (existsb _ _); [discriminate|]. destruct (existsb _ _); [discriminate|]. injection V as <-.
  cbn [bind] in E. unfold process_table in E. cbn [interpolate_table trim_table bind] in E.
  destruct (normalize_table t) as [t1|] eqn:N; [|discriminate]. cbn [bind] in E. injection E as <-. cbn.
  split; auto. split; auto. split; auto. split; [unfold pb_waves; simpl; apply normalize_xs; auto|].
  destruct (normalize_inv _ _ N) as (_ & _ & ->). unfold yscale. unfold numerators at 2. rewrite map_map. apply map_ext. intros q. cbn [fst snd]. f_equal. unfold Rdiv. ring.
Qed.
Lemma basis_positive : forall g fs B f b, built g -> separated (all_waves g) -> NoDup fs -> sed_basis g fs = Ok B -> In f fs -> dget f B = Some b ->
  (forall w, 0 <= on_grid (pg_waves g) b w) /\ (forall w, own_wave g fs f w -> 0 < on_grid (pg_waves g) b w).
Proof.
  intros g fs B f b BU S ND H Hf DB. destruct (C33_grid g BU S) as [HI HG].
  unfold sed_basis in H. destruct (all_used g fs) as [l|] eqn:EU; [|discriminate]. cbn [bind] in H. destruct (all_used_ok _ _ _ EU) as [ML UL].
  assert (NDl : NoDup (map fst l)) by now rewrite ML. destruct (basis_fold _ _ _ _ NDl H) as [HB _].
  rewrite <- ML in Hf. apply in_map_iff in Hf. destruct Hf as ([f0 u] & EF & Hf). simpl in EF. subst f0.
  destruct (HB f u Hf) as (b0 & OB & DB0). assert (b0 = b) by congruence. subst b0. clear DB0.
  destruct (one_basis_inv _ _ _ _ _ OB) as (t & ts & Ht & FL & EB). assert (IT : 0 < / t) by now apply Rinv_0_lt_compat.
  assert (BX : forall k, nth k b 0 = / t * if nth k (own_waves l u) false then 1 else 0).
  { intros k. rewrite EB, nth_box. f_equal. clear. revert k. induction (own_waves l u) as [|x o IH]; intros [|k]; simpl; auto. }
  split.
  - intros w. unfold on_grid. rewrite BX. destruct (nth _ (own_waves l u) false); lra.
  - intros w ((p0 & y & D0 & HW & HY) & HO). destruct (used_waves_ok g f u BU S (UL _ _ Hf)) as (p & DP & LU & US).
    assert (p0 = p) by (eapply denotes_unique; eauto). subst p0.
    assert (IN : In w (pg_waves g)) by (apply HG; exists p; split; [apply DP|]; unfold pb_waves, xs; apply in_map_iff; exists (w, y); auto).
    apply In_nth_error in IN. destruct IN as (k & Ek). assert (LK : (k < length u)%nat) by (rewrite LU; apply nth_error_Some; congruence).
    assert (N1 : nth k u false = true) by (apply (US k w Ek); eauto).
    rewrite (on_grid_nth _ _ k w HI Ek), BX. rewrite (own_unique l f u k NDl Hf LK N1); [lra|].
    intros f' u' Hf' NE. destruct (nth k u' false) eqn:E; auto. exfalso.
    destruct (used_waves_ok g f' u' BU S (UL _ _ Hf')) as (p2 & D2 & _ & US2). apply (US2 k w Ek) in E. destruct E as (y' & Y1 & Y2).
    assert (In f' fs) by (rewrite <- ML; apply in_map_iff; exists (f', u'); auto). specialize (HO f' p2 y' H0 NE D2 Y1). lra.
Qed.
(** Two bands "r" at 100..200 and "g" with rows (100, e), (300, 1), (400, 1). *)
Lemma two_bands : forall e, 0 <= e <= 1 / 10000 -> exists g p1 p2, built g /\ separated (all_waves g) /\ members g = [p1; p2] /\
  denotes g "r" p1 /\ denotes g "g" p2 /\ pb_delta p1 = None /\ pb_delta p2 = None /\
  (exists a b, pb_table p1 = [(100, a); (200, b)] /\ 1 / 10 ^ 5 < a /\ 1 / 10 ^ 5 < b) /\
  (exists a b c, pb_table p2 = [(100, a); (300, b); (400, c)] /\ 1 / 10 ^ 5 < b /\ 1 / 10 ^ 5 < c /\ a <= 1 / 10 ^ 5 /\ (e = 0 -> a = 0) /\ (0 < e -> 0 < a) /\ 0 <= a).
Proof.
  intros e He.
  destruct (C29_defined [(100, 1); (200, 1)] "S" "r") as (p1 & E1); [repeat constructor; simpl; lra|simpl; lra|simpl; lia|left; simpl; lra|].
  destruct (C29_defined [(100, e); (300, 1); (400, 1)] "S" "g") as (p2 & E2); [unfold physical; repeat (apply Forall_cons; [simpl; lra|]); apply Forall_nil|simpl; lra|simpl; lia|right; left; simpl; lra|].
  assert (P5 : 1 / 10 ^ 5 = 1 / 100000) by (simpl; lra).
  destruct (made_table _ _ _ _ E1) as (S1 & F1 & D1 & W1 & T1). destruct (made_table _ _ _ _ E2) as (S2 & F2 & D2 & W2 & T2).
  assert (N1 : pb_full p1 = "S_r"%string) by (unfold pb_full; rewrite S1, F1; reflexivity).
  assert (N2 : pb_full p2 = "S_g"%string) by (unfold pb_full; rewrite S2, F2; reflexivity).
  destruct (pair_group p1 p2) as (g & B & EB & EM); [do 6 eexists; exact E1|do 6 eexists; exact E2|congruence|].
  exists g, p1, p2. split; auto. split.
  { unfold all_waves. rewrite EM. simpl. rewrite W1, W2. simpl. intros a b Ha Hb HL. rewrite threshold_val.
    repeat (destruct Ha as [<-|Ha]); repeat (destruct Hb as [<-|Hb]); try tauto; lra. }
  split; auto. split; [|split].
  - split; [rewrite EM; left; auto|]. right. rewrite EM. cbn [map]. rewrite N1, N2. split; [intros [X|[X|[]]]; discriminate|]. split; auto.
    intros p' [<-|[<-|[]]] HF; auto. congruence.
  - split; [rewrite EM; right; left; auto|]. right. rewrite EM. cbn [map]. rewrite N1, N2. split; [intros [X|[X|[]]]; discriminate|]. split; auto.
    intros p' [<-|[<-|[]]] HF; auto. congruence.
  - split; auto. split; auto. split.
    + rewrite T1. cbn [map fst snd]. do 2 eexists. split; [reflexivity|]. rewrite P5. unfold numerators. cbn [map fst snd trapz]. split; lra.
    + rewrite T2. cbn [map fst snd]. do 3 eexists. split; [reflexivity|]. rewrite P5. unfold numerators. cbn [map fst snd trapz].
      set (den := (300 - 100) * (e / 100 + 1 / 300) / 2 + ((400 - 300) * (1 / 300 + 1 / 400) / 2 + 0)).
      assert (DN : 6 / 10 < den < 7 / 10) by (unfold den; lra). assert (ID : 1 < / den < 2).
      { split; [rewrite <- Rinv_1 at 1; apply Rinv_lt_contravar; lra|]. replace 2 with (/ (1 / 2)) by field. apply Rinv_lt_contravar; lra. }
      clearbody den. assert (DK : forall x, x / den = x * / den) by reflexivity. rewrite !DK. set (k := / den) in *. clearbody k. clear DK.
      split; [unfold Rdiv; nra|]. split; [unfold Rdiv; nra|]. split; [unfold Rdiv; nra|]. split; [intros ->; unfold Rdiv; ring|].
      split; [intros; unfold Rdiv; nra|unfold Rdiv; nra].
Qed.
Lemma two_bands_own : forall g p1 p2, built g -> denotes g "r" p1 -> denotes g "g" p2 ->
  (exists a b, pb_table p1 = [(100, a); (200, b)] /\ 1 / 10 ^ 5 < a /\ 1 / 10 ^ 5 < b) ->
  (exists a b c, pb_table p2 = [(100, a); (300, b); (400, c)] /\ 1 / 10 ^ 5 < b /\ 1 / 10 ^ 5 < c /\ a <= 1 / 10 ^ 5) ->
  own_wave g ["r"; "g"]%string "r" 100 /\ own_wave g ["r"; "g"]%string "g" 300.
Proof.
  intros g p1 p2 BU D1 D2 (a & b & T1 & A & B) (a2 & b2 & c2 & T2 & A2 & B2 & C2). split.
  - split; [exists p1, a; split; [assumption|]; rewrite T1; split; [left; reflexivity|assumption]|]. intros f' p' y' [<-|[<-|[]]] N D' IN; [congruence|].
    assert (p' = p2) by (eapply denotes_unique; eauto). subst p'. rewrite T2 in IN.
    destruct IN as [X|[X|[X|[]]]]; pose proof (f_equal fst X) as X1; pose proof (f_equal snd X) as X2; simpl in X1, X2; try lra; subst; auto.
  - split; [exists p2, b2; split; [assumption|]; rewrite T2; split; [right; left; reflexivity|assumption]|]. intros f' p' y' [<-|[<-|[]]] N D' IN; [|congruence].
    assert (p' = p1) by (eapply denotes_unique; eauto). subst p'. rewrite T1 in IN.
    destruct IN as [X|[X|[]]]; pose proof (f_equal fst X) as X1; simpl in X1; lra.
Qed.
Lemma two_bands_basis : forall e, 0 <= e <= 1 / 10000 -> exists g p1 p2 B, built g /\ separated (all_waves g) /\ members g = [p1; p2] /\
  sed_basis g ["r"; "g"]%string = Ok B /\ denotes g "r" p1 /\ denotes g "g" p2 /\ own_wave g ["r"; "g"]%string "r" 100 /\
  (exists a b, pb_table p1 = [(100, a); (200, b)] /\ 1 / 10 ^ 5 < a /\ 1 / 10 ^ 5 < b) /\
  (exists a b c, pb_table p2 = [(100, a); (300, b); (400, c)] /\ 1 / 10 ^ 5 < b /\ 1 / 10 ^ 5 < c /\ a <= 1 / 10 ^ 5 /\ (e = 0 -> a = 0) /\ (0 < e -> 0 < a) /\ 0 <= a) /\ pb_delta p2 = None.
Proof.
  intros e He. destruct (two_bands e He) as (g & p1 & p2 & BU & S & EM & D1 & D2 & X1 & X2 & T1 & T2).
  pose proof T2 as (a2 & b2 & c2 & T2' & A2 & B2 & C2 & E0 & E1 & NN).
  destruct (two_bands_own g p1 p2 BU D1 D2 T1) as [O1 O2]; [exists a2, b2, c2; auto|].
  assert (P5 : 0 < 1 / 10 ^ 5) by (simpl; lra).
  assert (ND : NoDup ["r"; "g"]%string) by (repeat constructor; simpl; intuition discriminate).
  destruct (proj1 (C49_defined g ["r"; "g"]%string BU S ND ltac:(
    intros f [<-|[<-|[]]];
    [exists p1; split; auto; split; [destruct T1 as (a & b & T1 & A & B); intros w y IN; rewrite T1 in IN; destruct IN as [X|[X|[]]]; injection X as _ <-; lra|intros d Hd; congruence]
    |exists p2; split; auto; split; [intros w y IN; rewrite T2' in IN; destruct IN as [X|[X|[X|[]]]]; injection X as _ <-; lra|intros d Hd; congruence]])))
    as (B & HB).
  { intros f [<-|[<-|[]]]; [exists 100|exists 300]; auto. }
  exists g, p1, p2, B. repeat (split; [assumption|]). assumption.
Qed.
(** The hypotheses of C49_basis are met by a pair of bands with interleaved wavelengths. *)
Example C49_applies : exists g B, built g /\ separated (all_waves g) /\ NoDup ["r"; "g"]%string /\ sed_basis g ["r"; "g"]%string = Ok B /\
  (forall f p, In f ["r"; "g"]%string -> denotes g f p -> clean p) /\
  exists b, dget "r"%string B = Some b /\ pg_bandflux g [b] "r" = Ok [1] /\ pg_bandflux g [b] "g" = Ok [0].
Proof.
  destruct (two_bands_basis 0) as (g & p1 & p2 & B & BU & S & EM & HB & D1 & D2 & OW & T1 & T2 & _); [lra|].
  assert (ND : NoDup ["r"; "g"]%string) by (repeat constructor; simpl; intuition discriminate).
  assert (CL : forall f p, In f ["r"; "g"]%string -> denotes g f p -> clean p).
  { intros f p [<-|[<-|[]]] D.
    - assert (p = p1) by (eapply denotes_unique; eauto). subst p. destruct T1 as (a & b & T1 & A & C). intros w y IN. rewrite T1 in IN.
      destruct IN as [X|[X|[]]]; injection X as _ <-; right; auto.
    - assert (p = p2) by (eapply denotes_unique; eauto). subst p. destruct T2 as (a & b & c & T2 & A & C & E & Z & _). intros w y IN. rewrite T2 in IN.
      destruct IN as [X|[X|[X|[]]]]; injection X as _ <-; auto. }
  exists g, B. split; auto. split; auto. split; auto. split; auto. split; auto.
  destruct (C49_basis g _ B BU S ND HB CL "r" "r") as (b & E1 & E2 & E3); [left; auto|left; auto|].
  destruct (C49_basis g _ B BU S ND HB CL "r" "g") as (b' & F1 & F2 & F3); [left; auto|right; left; auto|].
  exists b. split; auto. split; [exact E3|]. assert (b' = b) by congruence. subst b'. exact F3.
Qed.
(** Without [clean] the claim fails: transmission below 1e-5 counts as unused, but still collects the other filter's box. *)
Theorem C49_faint_tails_refuted : exists g B b x, built g /\ separated (all_waves g) /\ sed_basis g ["r"; "g"]%string = Ok B /\
  dget "r"%string B = Some b /\ pg_bandflux g [b] "g" = Ok [x] /\ x <> 0.
Proof.
  destruct (two_bands_basis (1 / 10000)) as (g & p1 & p2 & B & BU & S & EM & HB & D1 & D2 & OW & T1 & (a & b & c & T2 & A & C & E & _ & P & NN) & DE); [lra|].
  assert (ND : NoDup ["r"; "g"]%string) by (repeat constructor; simpl; intuition discriminate).
  destruct (C33_grid g BU S) as [HI HG].
  assert (BB : exists b, dget "r"%string B = Some b /\ length b = length (pg_waves g)).
  { pose proof HB as H. unfold sed_basis in H. destruct (all_used g _) as [l|] eqn:EU; [|discriminate]. cbn [bind] in H. destruct (all_used_ok _ _ _ EU) as [ML UL].
    assert (NDl : NoDup (map fst l)) by now rewrite ML. destruct (basis_fold _ _ _ _ NDl H) as [HB' _].
    assert (Hf : In "r"%string (map fst l)) by (rewrite ML; left; auto). apply in_map_iff in Hf. destruct Hf as ([f0 u] & EF & Hf). simpl in EF. subst f0.
    destruct (HB' _ _ Hf) as (x & OB & DB). exists x. split; auto. destruct (one_basis_inv _ _ _ _ _ OB) as (t & ts & _ & _ & ->).
    destruct (used_waves_ok g _ u BU S (UL _ _ Hf)) as (p & _ & LU & _). unfold own_waves. now rewrite !map_length, seq_length. }
  destruct BB as (bb & DB & LB). destruct (basis_positive g _ B "r" bb BU S ND HB (or_introl eq_refl) DB) as [NP PP].
  destruct (bandflux_resp g "g" p2 [on_grid (pg_waves g) bb] BU S D2) as [Q _]; [discriminate|]. cbn [map] in Q. rewrite (on_grid_map _ _ HI LB) in Q.
  exists g, B, bb, (resp p2 (on_grid (pg_waves g) bb)). repeat (split; [assumption|]).
  assert (0 < resp p2 (on_grid (pg_waves g) bb)); [|lra].
  assert (P5 : 0 < 1 / 10 ^ 5) by (simpl; lra).
  apply resp_pos.
  - unfold pb_waves. rewrite T2. simpl. lra.
  - rewrite T2. simpl. lia.
  - intros d Hd. congruence.
  - intros w y IN. apply Rmult_le_pos; [apply NP|]. rewrite T2 in IN. destruct IN as [X|[X|[X|[]]]]; injection X as _ <-; lra.
  - exists 100, a. split; [rewrite T2; left; auto|]. apply Rmult_lt_0_compat; [apply PP; auto|]. apply P. lra.
Qed.
Print Assumptions C49_basis.
Print Assumptions C49_template.
Print Assumptions C49_defined.
