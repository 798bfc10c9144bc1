(** Theorems added after mechanical edits survived (tools/automut.py): periodic light curves (C48), white space (C58), constants of the surveys and of the AGN model (C57, C72, C73, C74, C76), kinds of errors (C52, C76). *)
From Coq Require Import Reals String Ascii List Bool Arith ZArith Lia Lra.
From Verif Require Import Base BaseFacts RealBase PassbandModel TemplateModel TemplateProps NoiseModel ObsTableModel SurveyModel RomanModel AgnModel AgnProps LclibModel BicubicModel BicubicProps.
Import ListNotations.
Open Scope list_scope.
Open Scope R_scope.

(** ** C48: what a periodic light curve must satisfy *)
(** numpy's default tolerances. *)
Definition close_r (a b : R) : Prop := Rabs (a - b) <= 1 / 10 ^ 8 + 1 / 10 ^ 5 * Rabs b.
Lemma isclose_r : forall a b, isclose a b = true <-> close_r a b.
Proof. intros. unfold isclose, close_r. apply Rleb_true. Qed.
Lemma nth_error_combine_ : forall A B (a : list A) (b : list B) i, nth_error (combine a b) i = match nth_error a i, nth_error b i with Some x, Some y => Some (x, y) | _, _ => None end.
Proof. induction a as [|x a IH]; intros b i; destruct b as [|y b]; destruct i as [|i]; simpl; auto. now destruct (nth_error a i). Qed.
Lemma allclose_r : forall a b, (2 <= length b)%nat -> TemplateModel.allclose a b = true -> (length a = length b /\ forall i x y, nth_error a i = Some x -> nth_error b i = Some y -> close_r x y) \/ (exists x, a = [x] /\ forall y, In y b -> close_r x y).
Proof.
  intros a b L H. unfold TemplateModel.allclose in H. destruct (Nat.eqb_spec (length a) (length b)) as [E|E].
  - left. split; auto. rewrite forallb_forall in H. intros i x y Hx Hy. apply isclose_r. apply (H (x, y)). apply nth_error_In with i. rewrite nth_error_combine_, Hx, Hy. reflexivity.
  - right. destruct a as [|x [|x' a]]; [destruct b as [|y [|y' b]]; try discriminate; cbn in L; lia| |destruct b as [|y [|y' b]]; try discriminate; cbn in L; lia].
    exists x. split; auto. intros y Hy. rewrite forallb_forall in H. apply isclose_r. auto.
Qed.
Lemma f2_nth : forall A B (P : A -> B -> Prop) l1 l2 i a, Forall2 P l1 l2 -> nth_error l1 i = Some a -> exists b, nth_error l2 i = Some b /\ P a b.
Proof. intros A B P l1 l2 i a H. revert i. induction H; intros k E; destruct k; try discriminate; cbn in *; [injection E as <-; eauto|auto]. Qed.
(** Accepted as periodic only if: the first curve has two rows or more and a positive extent, which is the period; the times of all curves agree with the first one's up to the tolerances (a curve of one row
    must agree with all of them); and every curve ends with the value it starts with. *)
Theorem C48_periodic_requires : forall d t0 mags baseline lc b', make_lc (LDict d) t0 true mags baseline = Ok (lc, b') ->
  exists f0 tab0 rest, d = (f0, tab0) :: rest /\ (2 <= length (tb_rows tab0))%nat /\ lc_period lc = Some (last (xs (tb_rows tab0)) 0 - hd 0 (xs (tb_rows tab0))) /\
  forall f tab, In (f, tab) d ->
    ((length (tb_rows tab) = length (tb_rows tab0) /\ forall i x y, nth_error (xs (tb_rows tab)) i = Some x -> nth_error (xs (tb_rows tab0)) i = Some y -> close_r (x - t0) (y - t0)) \/
     (exists x v, tb_rows tab = [(x, v)] /\ forall y, In y (xs (tb_rows tab0)) -> close_r (x - t0) (y - t0))) /\
    exists x1 v1 x2 v2, hd_error (tb_rows tab) = Some (x1, v1) /\ nth_error (tb_rows tab) (length (tb_rows tab) - 1) = Some (x2, v2) /\ close_r (as_flux mags v1) (as_flux mags v2).
Proof.
  intros d t0 mags baseline lc b' H. destruct (make_lc_inv _ _ _ _ _ _ _ H) as (d' & cs & HP & HC & _ & (p & HV & EP) & _). cbn in HP. injection HP as <-.
  destruct (validate_periodicity_inv _ _ _ _ _ HV) as (f0 & c0 & rest & EC & L2 & PE & PP & AL & _). unfold dict_curves in HC. rewrite EC in HC. inversion HC as [|[g0 tab0] ? dr ? [E1 E2] HC' EQ1 EQ2]; subst. cbn [fst snd] in E1, E2. subst g0.
  exists f0, tab0, dr. split; auto. apply check_inv in E2. destruct E2 as (_ & I0 & C0).
  assert (XS : forall (l : list (R * R)), xs (map (fun p => (fst p - t0, as_flux mags (snd p))) l) = map (fun x => x - t0) (xs l)) by (intros; unfold xs; rewrite !map_map; reflexivity).
  assert (LEN : length c0 = length (tb_rows tab0)) by (rewrite C0; apply map_length). rewrite LEN in L2. split; auto. split.
  { rewrite EP. f_equal. rewrite C0. unfold last_x, first_x, xs. destruct (tb_rows tab0) as [|[x v] l] eqn:ER; [cbn in L2; lia|]. 
    rewrite (last_map_gen _ _ _ ((x, v) :: l) (0, 0)) by discriminate. rewrite (last_map_gen _ _ fst ((x, v) :: l) (0, 0)) by discriminate. cbn [map hd fst]. ring. }
  intros f tab HI. destruct (In_nth_error _ _ HI) as (k & Hk). assert (HF : Forall2 (fun a b => fst a = fst b /\ check_curve t0 mags (snd a) = Ok (snd b)) ((f0, tab0) :: dr) ((f0, c0) :: rest)) by exact HC.
  destruct (f2_nth _ _ _ _ _ _ _ HF Hk) as ([g c] & Hc & E3 & E4). cbn [fst snd] in E3, E4. subst g. apply check_inv in E4. destruct E4 as (_ & I1 & C1).
  destruct (AL (f, c) (nth_error_In _ _ Hc)) as [A1 A2]. cbn [snd] in A1, A2. rewrite C1, C0, !XS in A1.
  split.
  - apply allclose_r in A1; [|rewrite map_length; unfold xs; rewrite map_length; lia]. destruct A1 as [[A B]|(x & A & B)].
    + left. unfold xs in A. rewrite !map_length in A. split; auto. intros i x y Hx Hy. apply (B i); [exact (map_nth_error (fun x => x - t0) i _ Hx) | exact (map_nth_error (fun x => x - t0) i _ Hy)].
    + right. destruct (tb_rows tab) as [|[x' v] [|? ?]] eqn:ET; try discriminate. cbn in A. injection A as A. exists x', v. split; auto. intros y Hy. rewrite <- A in B. apply B. apply in_map_iff. eauto.
  - apply isclose_r in A2. rewrite C1 in A2. assert (NE : tb_rows tab <> []).
    { intros C. rewrite C in A1. cbn in A1. unfold TemplateModel.allclose in A1. destruct (tb_rows tab0) as [|? [|? ?]]; cbn in *; try lia; discriminate. }
    unfold first_y, last_y in A2. destruct (exists_last NE) as (l' & [x2 v2] & EL). rewrite EL in A2. rewrite map_app in A2. cbn [map fst snd] in A2. rewrite last_last in A2. cbn [snd] in A2.
    destruct (tb_rows tab) as [|[x1 v1] l1] eqn:ER; [congruence|]. exists x1, v1, x2, v2. split; [reflexivity|]. split.
    + rewrite EL, app_length. cbn [length]. rewrite nth_error_app2 by lia. replace (length l' + 1 - 1 - length l')%nat with 0%nat by lia. reflexivity.
    + destruct l' as [|[a b] l']; cbn in EL; injection EL as E5 E6; cbn in A2; [|inversion E5; subst; exact A2]. subst. exact A2.
Qed.

(** Concrete: two curves of the same times. *)
Example C48_periodic_requires_applies : exists lc b', make_lc (LDict [("g", mkTab 2 [(1, 5); (2, 7); (3, 5)]); ("r", mkTab 2 [(1, 6); (2, 8); (3, 6)])]%string) 1 true false None = Ok (lc, b') /\ lc_period lc = Some 2.
Proof.
  unfold make_lc. cbn [lc_parse bind]. unfold check_curves. cbn [fold_res bind snd fst].
  assert (CK : forall a b c, check_curve 1 false (mkTab 2 [(1, a); (2, b); (3, c)]) = Ok [(1 - 1, a); (2 - 1, b); (3 - 1, c)]).
  { intros. unfold check_curve. cbn -[Rminus Rltb]. replace (Rltb 0 (2 - 1)) with true by (symmetry; apply Rltb_true; lra). replace (Rltb 0 (3 - 2)) with true by (symmetry; apply Rltb_true; lra). reflexivity. }
  rewrite !CK. cbn [bind app fst snd]. unfold validate_periodicity. cbn [map snd length Nat.ltb Nat.leb].
  assert (CL : forall a, isclose a a = true). { intros. apply isclose_r. unfold close_r. rewrite Rminus_diag_eq, Rabs_R0 by reflexivity. pose proof (Rabs_pos a). lra. }
  assert (AC : forall a, TemplateModel.allclose a a = true). { intros. unfold TemplateModel.allclose. rewrite Nat.eqb_refl. apply forallb_forall. intros [x y] HI. assert (x = y). { clear - HI. induction a as [|z a IH]; cbn in HI; [tauto|]. destruct HI as [HI|HI]; [congruence|auto]. } subst. apply CL. }
  change (xs [(1 - 1, 6); (2 - 1, 8); (3 - 1, 6)]) with (xs [(1 - 1, 5); (2 - 1, 7); (3 - 1, 5)]). cbn [forallb]. change (xs [(1 - 1, 6); (2 - 1, 8); (3 - 1, 6)]) with (xs [(1 - 1, 5); (2 - 1, 7); (3 - 1, 5)]). rewrite AC. unfold first_y, last_y, last_x, first_x. cbn [hd last fst snd xs map]. rewrite !CL. cbn [andb negb].
  replace (Rleb (3 - 1 - (1 - 1)) 0) with false by (symmetry; apply Rleb_false; lra). replace (1 - 1) with 0 by ring. rewrite CL. cbn [bind fst snd]. eexists. eexists. split; [reflexivity|]. cbn [lc_period]. f_equal. ring.
Qed.

(** ** C58: white space *)
Close Scope R_scope.
Open Scope nat_scope.
(** Python's white space characters of the ASCII range: tab, line feed, vertical tab, form feed, carriage return, the four separators and the blank. *)
Theorem C58_white_space : forall c, is_space c = true <-> In (nat_of_ascii c) [9; 10; 11; 12; 13; 28; 29; 30; 31; 32].
Proof.
  intros c. unfold is_space. cbv zeta. rewrite orb_true_iff, !andb_true_iff, !Nat.leb_le. cbn [In]. lia.
Qed.

(** ** C76: errors and numbers of the AGN model *)
Open Scope R_scope.
Theorem C76_keyword_error : forall kw, ~ (In "redshift"%string kw /\ (In "cosmology"%string kw \/ In "distance"%string kw)) -> agn_check kw = Err ValueError.
Proof.
  intros kw H. rewrite <- C76_keywords in H. unfold agn_check in *. destruct (negb _); auto. destruct (_ && _)%bool; auto. congruence.
Qed.
(** The solar mass is 1.988 e33 g. *)
Theorem C76_solar_mass : 1988 * 10 ^ 30 < m_sun_g < 1989 * 10 ^ 30.
Proof.
  unfold m_sun_g, grav. assert (P : 0 < 66743 / 10 ^ 12) by (apply Rdiv_lt_0_compat; [lra|apply pow_lt; lra]).
  split; apply Rmult_lt_reg_r with (66743 / 10 ^ 12); auto; unfold Rdiv; rewrite ?Rmult_assoc, ?Rinv_l, ?Rmult_1_r by (apply Rgt_not_eq; auto); simpl; lra.
Qed.
(** The magnitude and the structure function and time scale at 4000 angstroms in terms of the luminosity and the mass in solar masses (MacLeod et al. 2010). *)
Theorem C76_formulas : forall mass edd, 0 < mass -> 0 < edd -> let p := agn_derived mass edd in let l10 x := ln x / ln 10 in
  de_mag p = 90 - 5 / 2 * l10 (de_lum p) /\
  de_sf p = Rpower 10 (- (476 / 1000) + 118 / 1000 * (de_mag p + 23) + 118 / 1000 * l10 (mass / 10 ^ 9)) /\
  de_tau p = Rpower 10 (2597 / 1000 + 35 / 1000 * (de_mag p + 23) + 141 / 1000 * l10 (mass / 10 ^ 9)).
Proof.
  intros mass edd HM HE p l10. pose proof m_sun_pos as HS. assert (E : mass * m_sun_g / (10 ^ 9 * m_sun_g) = mass / 10 ^ 9) by (field; lra).
  unfold p, agn_derived, mag_i, sf_4000, tau_4000, AgnModel.log10. cbv zeta. cbn [de_mag de_sf de_tau de_lum]. rewrite !E. unfold l10. split; [lra|]. split; reflexivity.
Qed.

(** ** Constants of the surveys *)
(** Rubin's zero points (magnitude of one electron per second), extinction coefficients and survey values. *)
Theorem C57_tables : forall band, 
  dget band lsst_zp = (if String.eqb band "u" then Some 26.524 else if String.eqb band "g" then Some 28.508 else if String.eqb band "r" then Some 28.361 else if String.eqb band "i" then Some 28.171
                       else if String.eqb band "z" then Some 27.782 else if String.eqb band "y" then Some 26.818 else None)%string /\
  dget band lsst_ext = (if String.eqb band "u" then Some (-0.458) else if String.eqb band "g" then Some (-0.208) else if String.eqb band "r" then Some (-0.122) else if String.eqb band "i" then Some (-0.074)
                        else if String.eqb band "z" then Some (-0.057) else if String.eqb band "y" then Some (-0.095) else None)%string.
Proof.
  intros band. unfold lsst_zp, lsst_ext. cbn [dget fst snd]. split;
  repeat (match goal with |- context [String.eqb band ?k] => destruct (String.eqb band k) end; [f_equal; lra|]); reflexivity.
Qed.
Definition value_is (d : dict sval) (key : string) (r : R) : Prop := exists x, dget key d = Some (SNum x) /\ x = r.
Theorem C72_rubin_values : value_is opsim_defaults "dark_current"%string 0.2 /\ value_is opsim_defaults "pixel_scale"%string 0.2 /\ value_is opsim_defaults "radius"%string 1.75 /\ value_is opsim_defaults "read_noise"%string 8.8 /\
  dget "zp_per_sec"%string opsim_defaults = Some (SMap lsst_zp) /\ dget "ext_coeff"%string opsim_defaults = Some (SMap lsst_ext) /\ dget "survey_name"%string opsim_defaults = Some (SText "LSST"%string) /\ length opsim_defaults = 7%nat.
Proof. repeat match goal with |- _ /\ _ => split end; try reflexivity; eexists; (split; [reflexivity|lra]). Qed.
Theorem C73_ztf_values : value_is ztf_defaults "dark_current"%string 0 /\ value_is ztf_defaults "gain"%string 6.2 /\ value_is ztf_defaults "pixel_scale"%string 1.01 /\ value_is ztf_defaults "radius"%string 2.735 /\ value_is ztf_defaults "read_noise"%string 8 /\
  dget "survey_name"%string ztf_defaults = Some (SText "ZTF"%string) /\ length ztf_defaults = 6%nat.
Proof. repeat match goal with |- _ /\ _ => split end; try reflexivity; eexists; (split; [reflexivity|unfold ztf_dark, ztf_gain, ztf_read; lra]). Qed.
(** Roman's radius is that of a disc of 0.28 square degrees. *)
Theorem C74_roman_values : value_is roman_defaults "dark_current"%string 0 /\ value_is roman_defaults "pixel_scale"%string 0.11 /\ value_is roman_defaults "zodi_level"%string 1.5 /\
  (exists r, dget "radius"%string roman_defaults = Some (SNum r) /\ 0 < r /\ PI * (r * r) = 0.28) /\ dget "survey_name"%string roman_defaults = Some (SText "Roman"%string) /\ length roman_defaults = 5%nat.
Proof.
  pose proof PI_RGT_0 as P. repeat match goal with |- _ /\ _ => split end; try reflexivity; try (eexists; (split; [reflexivity|lra])).
  eexists. split; [reflexivity|]. assert (0 < 28 / 100 / PI) by (apply Rdiv_lt_0_compat; lra). split; [now apply sqrt_lt_R0|]. rewrite sqrt_sqrt by lra. assert (PI * (28 / 100 / PI) = 28 / 100) by (field; lra). lra.
Qed.
(** Roman's read noise: the square is 25 + 3072 (n - 1) / (n (n + 1)) for n reads of 3.04 seconds; for less than one read it may be negative, and then there is no error bar. *)
Theorem C74_read_noise : forall t, 0 < t -> let n := t / 3.04 in
  (25 * (n * (n + 1)) + 3072 * (n - 1) < 0 -> forall x nz nt np zp lvl dk, roman_row x (Some t) (Some nz) (Some nt) (Some np) (Some zp) lvl dk = None) /\
  (0 <= 25 * (n * (n + 1)) + 3072 * (n - 1) -> roman_read t * roman_read t = 25 + 3072 * ((n - 1) / (n * (n + 1))) /\
     forall x nz nt np zp lvl dk, roman_row x (Some t) (Some nz) (Some nt) (Some np) (Some zp) lvl dk = roman_error x t np lvl nz nt zp dk).
Proof.
  intros t Ht n. assert (EN : t / (304 / 100) = n) by (unfold n; lra). assert (N0 : 0 < n) by (unfold n; lra).
  assert (NN : 0 < n * (n + 1)) by (apply Rmult_lt_0_compat; lra).
  assert (EQ : read_square t = (25 * (n * (n + 1)) + 3072 * (n - 1)) / (n * (n + 1))) by (unfold read_square; cbv zeta; rewrite EN; field; lra).
  assert (EQ2 : 25 + 3072 * ((n - 1) / n / (n + 1)) = (25 * (n * (n + 1)) + 3072 * (n - 1)) / (n * (n + 1))) by (field; lra).
  assert (T0 : Reqb t 0 = false) by (apply Reqb_false; lra). assert (T1 : Reqb (t / (304 / 100) + 1) 0 = false) by (apply Reqb_false; lra).
  split; intros H.
  - intros. unfold roman_row. rewrite T0, T1. replace (Rltb (read_square t) 0) with true; [reflexivity|]. symmetry. apply Rltb_true. rewrite EQ. apply Rmult_lt_reg_r with (n * (n + 1)); auto. unfold Rdiv. rewrite Rmult_assoc, Rinv_l; lra.
  - assert (Q : 0 <= (25 * (n * (n + 1)) + 3072 * (n - 1)) / (n * (n + 1))) by (apply Rmult_le_reg_r with (n * (n + 1)); auto; unfold Rdiv; rewrite Rmult_assoc, Rinv_l; lra).
    split.
    + unfold roman_read. cbv zeta. rewrite EN. rewrite sqrt_sqrt by (rewrite EQ2; exact Q). field. lra.
    + intros. unfold roman_row. rewrite T0, T1. replace (Rltb (read_square t) 0) with false; [reflexivity|]. symmetry. apply Rltb_false. rewrite EQ. lra.
Qed.

(** ** C52: axes that are refused *)
Theorem C52_axis_error : forall l, ~ ((3 <= length l)%nat /\ increasing l) -> ax_make l = Err ValueError.
Proof.
  intros l H. rewrite <- (proj1 (ax_make_spec l)) in H. unfold ax_make in *. destruct (length l <? 3)%nat eqn:E0; auto. destruct (existsb _ _); auto. exfalso. apply H. apply Nat.ltb_ge in E0.
  destruct l as [|a [|b l]]; cbn in E0; try lia. cbn. eexists. reflexivity.
Qed.
