(** C111: random survey tables (src/lightcurvelynx/obstable/opsim.py 189-251, ztf_obstable.py 187-229). *)
From Coq Require Import Reals String Ascii List Bool Arith ZArith Lia Lra.
From Coquelicot Require Import Coquelicot.
From Verif Require Import Base BaseFacts RealBase ObsTableModel ObsTableProps ObsTableMore NoiseModel NoiseProps FakeModel FakeProps SurveyModel SurveyProps ZtfProps
  GraphStateModel NodeGraphModel SamplerModel RadecModel RadecProps RandomSurveyModel.
Import ListNotations.
Open Scope string_scope.
Open Scope list_scope.
Open Scope nat_scope.

(** ** Proofs *)
Section P.
Context {G : Type}.
Variable seeded : Z -> G.
Variable entropy : G.
Variable unit_draws : nat -> G -> list R * G.
Variable int_draws : nat -> nat -> G -> list nat * G.
Hypothesis US : unit_spec unit_draws.
Hypothesis IS : int_spec int_draws.

Lemma uniform_at : forall a b n g, (a <= b)%R -> exists l g', rng_uniform unit_draws a b n g = (l, g') /\ length l = n /\ g' = snd (unit_draws n g) /\
  l = map (fun u => (a + (b - a) * u)%R) (fst (unit_draws n g)) /\
  forall i, i < n -> exists x, nth_error l i = Some x /\ (a <= x)%R /\ (a < b -> x < b)%R.
Proof.
  intros a b n g HB. unfold rng_uniform. pose proof (US n g) as [L F]. destruct (unit_draws n g) as [us g'] eqn:E. cbn [fst snd] in *.
  do 2 eexists. split; [reflexivity|]. split; [now rewrite map_length|]. split; [reflexivity|]. split; [reflexivity|].
  intros i Hi. destruct (nth_error us i) as [u|] eqn:EU; [|apply nth_error_None in EU; lia]. exists (a + (b - a) * u)%R. split; [now apply (map_nth_error (fun u => (a + (b - a) * u)%R))|].
  rewrite List.Forall_forall in F. pose proof (F u (nth_error_In _ _ EU)) as [B1 B2]. split.
  - assert (0 <= (b - a) * u)%R by (apply Rmult_le_pos; lra). lra.
  - intros HL. assert ((b - a) * u < (b - a) * 1)%R by (apply Rmult_lt_compat_l; lra). lra.
Qed.
Lemma choice_at : forall names n g, names <> [] -> exists l g', rng_choice int_draws names n g = (l, g') /\ length l = n /\
  forall i, i < n -> exists s, nth_error l i = Some (CStr s) /\ In s names.
Proof.
  intros names n g NE. unfold rng_choice. pose proof (IS (length names) n g) as [L F]. destruct (int_draws (length names) n g) as [ix g'] eqn:E. cbn [fst] in *.
  do 2 eexists. split; [reflexivity|]. split; [now rewrite map_length|]. intros i Hi.
  destruct (nth_error ix i) as [k|] eqn:EK; [|apply nth_error_None in EK; lia]. exists (nth k names ""). split; [now apply (map_nth_error (fun i => CStr (nth i names "")))|].
  apply nth_In. assert (1 <= length names) by (destruct names; [congruence|cbn; lia]). specialize (F H). rewrite List.Forall_forall in F. apply F. now apply nth_error_In in EK.
Qed.
(** Positions on the sky. *)
Lemma dec_of : forall v, (0 <= v < 1)%R -> let d := degrees (acos (2 * v - 1) - PI / 2) in (-90 <= d <= 90)%R /\ sin (d * PI / 180) = (2 * (1 - v) - 1)%R.
Proof.
  intros v Hv d. pose proof PI_RGT_0 as HP. pose proof (acos_bound (2 * v - 1)) as AB. unfold d, degrees. split.
  - assert (E : forall x, (x * 180 / PI = x * (180 / PI))%R) by (intros; field; lra). rewrite E. assert (P : (0 < 180 / PI)%R) by (apply Rdiv_lt_0_compat; lra).
    assert (H90 : (PI / 2 * (180 / PI) = 90)%R) by (field; lra).
    assert ((- (PI / 2)) * (180 / PI) <= (acos (2 * v - 1) - PI / 2) * (180 / PI))%R by (apply Rmult_le_compat_r; lra).
    assert ((acos (2 * v - 1) - PI / 2) * (180 / PI) <= PI / 2 * (180 / PI))%R by (apply Rmult_le_compat_r; lra). lra.
  - replace ((acos (2 * v - 1) - PI / 2) * 180 / PI * PI / 180)%R with (- (PI / 2 - acos (2 * v - 1)))%R by (field; lra).
    rewrite sin_neg, sin_shift, cos_acos by lra. lra.
Qed.
Lemma sphere_at : forall n g, exists ra dec g', sphere_draws unit_draws n g = (ra, dec, g') /\ length ra = n /\ length dec = n /\ g' = snd (unit_draws n (snd (unit_draws n g))) /\
  forall i u v, nth_error (fst (unit_draws n g)) i = Some u -> nth_error (fst (unit_draws n (snd (unit_draws n g)))) i = Some v ->
    exists a d, nth_error ra i = Some a /\ nth_error dec i = Some d /\ sky_position true u (1 - v) a d.
Proof.
  intros n g. pose proof PI_RGT_0 as HP. unfold sphere_draws. destruct (uniform_at 0 (2 * PI) n g ltac:(lra)) as (l1 & g1 & -> & L1 & -> & -> & _).
  destruct (uniform_at 0 1 n (snd (unit_draws n g)) ltac:(lra)) as (l2 & g2 & -> & L2 & -> & -> & _). do 3 eexists. split; [reflexivity|].
  split; [now rewrite map_length|]. split; [now rewrite map_length|]. split; [reflexivity|]. intros i u v Hu Hv.
  do 2 eexists. split; [rewrite map_map; apply (map_nth_error (fun x => degrees (0 + (2 * PI - 0) * x)%R)); exact Hu|].
  split; [rewrite map_map; apply (map_nth_error (fun x => degrees (acos (2 * (0 + (1 - 0) * x) - 1) - PI / 2)%R)); exact Hv|].
  pose proof (US n (snd (unit_draws n g))) as [_ F]. rewrite List.Forall_forall in F. pose proof (F v (nth_error_In _ _ Hv)) as Bv.
  replace (0 + (1 - 0) * v)%R with v by lra. destruct (dec_of v Bv) as [D1 D2]. unfold sky_position, full_turn, sin_of. split; [unfold degrees; field; lra|]. split; [lra|exact D2].
Qed.
End P.
Lemma same_lengths : forall (n : nat) (d : dict (list cell)) k c, List.Forall (fun kc => length (snd kc) = n) ((k, c) :: d) -> frame_of_dict ((k, c) :: d) = Ok (mkFrame (seq 0 n) ((k, c) :: d)).
Proof.
  intros n d k c F. unfold frame_of_dict. inversion F as [|x l L F' E]; subst. cbn [snd].
  replace (forallb _ _) with true; [reflexivity|]. symmetry. apply forallb_forall. intros [k' c'] HI. rewrite List.Forall_forall in F. apply Nat.eqb_eq. exact (F _ HI).
Qed.
Lemma nums_at : forall l i x, nth_error l i = Some x -> nth_error (nums l) i = Some (CNum x).
Proof. intros l i x H. unfold nums. now apply map_nth_error. Qed.
Lemma repeat_at : forall A (x : A) n i, i < n -> nth_error (repeat x n) i = Some x.
Proof. intros A x n. induction n as [|n IH]; intros [|i] H; cbn; auto; try lia. apply IH. lia. Qed.
Lemma seq_at : forall n i, i < n -> nth_error (seq 0 n) i = Some i.
Proof. intros n i H. rewrite (nth_error_nth' _ 0) by (now rewrite seq_length). now rewrite seq_nth. Qed.
(** The tables after renaming. *)
Definition opsim_cols (t ra dec am fl ex : list cell) : dict (list cell) :=
  [("observationStartMJD", t); ("fieldRA", ra); ("fieldDec", dec); ("airmass", am); ("filter", fl); ("visitExposureTime", ex)].
Lemma opsim_base : forall lab t ra dec am fl ex, exists o0, ob_make (mkFrame lab (opsim_cols t ra dec am fl ex)) (Some opsim_colnames) [] [] None = Ok o0 /\
  f_labels (ob_frame o0) = lab /\ f_cols (ob_frame o0) = [("time", t); ("ra", ra); ("dec", dec); ("airmass", am); ("filter", fl); ("exptime", ex)] /\ ob_contains o0 "zp" = false.
Proof. intros. eexists. split; [reflexivity|]. split; [reflexivity|]. split; reflexivity. Qed.
Definition ztf_cols (dt ra dec ml sk fw fl ex : list cell) : dict (list cell) :=
  [("obsdate", dt); ("ra", ra); ("dec", dec); ("maglim", ml); ("scibckgnd", sk); ("fwhm", fw); ("filter", fl); ("exptime", ex)].
Lemma ztf_base : forall mjd lab dt ra dec ml sk fw fl ex, exists o0, ob_make (dated mjd (mkFrame lab (ztf_cols dt ra dec ml sk fw fl ex))) (Some ztf_colnames) [] [] None = Ok o0 /\
  f_labels (ob_frame o0) = lab /\ f_cols (ob_frame o0) = [("obsdate", dt); ("ra", ra); ("dec", dec); ("maglim", ml); ("sky", sk); ("fwhm", fw); ("filter", fl); ("exptime", ex);
    ("time", map (fun c => match c with CStr s => CNum (mjd s) | c => c end) dt)] /\ ob_contains o0 "zp" = false.
Proof. intros. eexists. split; [reflexivity|]. split; [reflexivity|]. split; reflexivity. Qed.

(** ** C111 *)
Section C111.
Context {G : Type}.
Variable seeded : Z -> G.
Variable entropy : G.
Variable unit_draws : nat -> G -> list R * G.
Variable int_draws : nat -> nat -> G -> list nat * G.
Notation create_random_opsim := (create_random_opsim seeded entropy unit_draws int_draws).
Notation create_random_ztf_obs_data := (create_random_ztf_obs_data seeded entropy unit_draws int_draws).
Notation start_rng := (start_rng seeded entropy).
(** The two numbers of [0, 1) behind the position of observation [i]. *)
Definition behind (n : nat) (seed : option Z) (i : nat) (u v : R) : Prop :=
  nth_error (fst (unit_draws n (start_rng seed))) i = Some u /\ nth_error (fst (unit_draws n (snd (unit_draws n (start_rng seed))))) i = Some v.
Lemma behind_some : forall n seed i, unit_spec unit_draws -> i < n -> exists u v, behind n seed i u v /\ (0 <= u < 1)%R /\ (0 <= v < 1)%R.
Proof.
  intros n seed i HU Hi. pose proof (HU n (start_rng seed)) as [L1 F1]. pose proof (HU n (snd (unit_draws n (start_rng seed)))) as [L2 F2]. unfold behind.
  destruct (nth_error (fst (unit_draws n (start_rng seed))) i) as [u|] eqn:E1; [|apply nth_error_None in E1; lia].
  destruct (nth_error (fst (unit_draws n (snd (unit_draws n (start_rng seed))))) i) as [v|] eqn:E2; [|apply nth_error_None in E2; lia].
  rewrite List.Forall_forall in F1, F2. exists u, v. split; auto. split; [apply F1|apply F2]; eapply nth_error_In; eauto.
Qed.
(** The table: as many rows as asked for, one every 0.05 days, on the sky, with an airmass, an LSST band, the exposure time and the zero point these give. *)
Theorem C111_opsim : forall num seed, unit_spec unit_draws -> int_spec int_draws -> (1 <= num)%Z -> exists o,
  create_random_opsim num seed = Ok o /\ nrows (ob_frame o) = Z.to_nat num /\ tinv o /\ dget "radius" (ob_values o) = Some (SNum (175 / 100)) /\ dget "pixel_scale" (ob_values o) = Some (SNum (2 / 10)) /\
  (forall c, In c (columns (ob_frame o)) <-> In c ["time"; "ra"; "dec"; "airmass"; "filter"; "exptime"; "zp"]) /\
  forall i, i < Z.to_nat num -> exists u v ra dec a s z k, behind (Z.to_nat num) seed i u v /\ sky_position true u (1 - v) ra dec /\
    cell_at o "time" i = Some (CNum (5 / 100 * INR i)) /\ cell_at o "ra" i = Some (CNum ra) /\ cell_at o "dec" i = Some (CNum dec) /\
    (cell_at o "airmass" i = Some (CNum a) /\ 13 / 10 <= a < 17 / 10)%R /\ cell_at o "filter" i = Some (CStr s) /\ In s ["u"; "g"; "r"; "i"; "z"; "y"] /\
    cell_at o "exptime" i = Some (CNum 29) /\ dget s lsst_zp = Some z /\ dget s lsst_ext = Some k /\
    cell_at o "zp" i = Some (CNum (mag2flux (z + k * (a - 1) + 25 / 10 * log10 29))).
Proof.
  intros num seed HU HI HN. set (n := Z.to_nat num). assert (N1 : 1 <= n) by (unfold n; lia). unfold RandomSurveyModel.create_random_opsim.
  replace (num <=? 0)%Z with false by (symmetry; apply Z.leb_gt; lia). fold n. cbv zeta.
  destruct (sphere_at unit_draws HU n (start_rng seed)) as (ra & dec & g1 & -> & LR & LD & _ & SP).
  destruct (uniform_at unit_draws HU (13 / 10) (17 / 10) n g1 ltac:(lra)) as (am & g2 & -> & LA & _ & _ & AM).
  destruct (choice_at int_draws HI ["u"; "g"; "r"; "i"; "z"; "y"] n g2 ltac:(discriminate)) as (fl & g3 & -> & LF & FL).
  set (tt := map (fun k => (5 / 100 * INR k)%R) (seq 0 n)). assert (LT : length tt = n) by (unfold tt; now rewrite map_length, seq_length).
  assert (LN : forall l, length (nums l) = length l) by (intros; unfold nums; now rewrite map_length).
  rewrite (same_lengths n) by (repeat constructor; cbn [snd]; rewrite ?LN, ?repeat_length; auto). cbn [bind].
  change [("observationStartMJD", nums tt); ("fieldRA", nums ra); ("fieldDec", nums dec); ("airmass", nums am); ("filter", fl); ("visitExposureTime", nums (repeat 29%R n))]
    with (opsim_cols (nums tt) (nums ra) (nums dec) (nums am) fl (nums (repeat 29%R n))).
  set (f := mkFrame (seq 0 n) (opsim_cols (nums tt) (nums ra) (nums dec) (nums am) fl (nums (repeat 29%R n)))).
  assert (FO : frame_ok f).
  { split; [unfold columns, f, opsim_cols, dkeys; cbn; repeat constructor; cbn; intuition discriminate|]. unfold f, nrows. cbn [f_cols f_labels]. rewrite seq_length. unfold opsim_cols.
    repeat constructor; cbn [snd]; rewrite ?LN, ?repeat_length; auto. }
  destruct (opsim_base (seq 0 n) (nums tt) (nums ra) (nums dec) (nums am) fl (nums (repeat 29%R n))) as (o0 & E0 & EL & EC & EZ). fold f in E0.
  assert (ND : NoDup (dkeys (opsim_map None))) by (cbn; repeat constructor; cbn; intuition discriminate).
  assert (NRo : nrows (ob_frame o0) = n) by (unfold nrows; rewrite EL; apply seq_length).
  assert (CA : forall c l i, dget c (f_cols (ob_frame o0)) = Some l -> cell_at o0 c i = nth_error l i) by (intros c l i H; unfold cell_at; now rewrite H).
  assert (KN : forall s, In s ["u"; "g"; "r"; "i"; "z"; "y"] -> exists z k, dget s lsst_zp = Some z /\ dget s lsst_ext = Some k).
  { intros s Hs. repeat (destruct Hs as [<-|Hs]; [do 2 eexists; split; reflexivity|]). destruct Hs. }
  assert (VZ : value_given opsim_defaults [] [] "zp_per_sec" = Some (SMap lsst_zp)) by reflexivity.
  assert (VE : value_given opsim_defaults [] [] "ext_coeff" = Some (SMap lsst_ext)) by reflexivity.
  destruct (C72_opsim_accepts f None [] [] None o0 lsst_zp lsst_ext FO ND (NoDup_nil _) (NoDup_nil _) E0) as (o & MK); auto.
  { rewrite NRo. lia. }
  { unfold columns, dkeys. rewrite EC. cbn. intuition. }
  { destruct (FL 0 ltac:(lia)) as (s & S1 & S2). exists s. split; [rewrite (CA "filter" fl); [exact S1|rewrite EC; reflexivity]|].
    destruct (KN s S2) as (z & k & K1 & K2). rewrite K1, K2. split; discriminate. }
  exists o. split; [exact MK|]. destruct (opsim_grows f None [] [] None o o0 FO ND E0 MK) as (GR & TI & CO). cbv zeta in GR.
  split; [rewrite (grows_nrows _ _ GR); exact NRo|]. split; auto. split; [rewrite (gr_values _ _ GR); reflexivity|]. split; [rewrite (gr_values _ _ GR); reflexivity|].
  destruct (C72_opsim_zero_points f None [] [] None o o0 FO ND (NoDup_nil _) (NoDup_nil _) E0 EZ MK) as (zps & exs & Z1 & Z2 & ZP).
  rewrite VZ in Z1. rewrite VE in Z2. injection Z1 as <-. injection Z2 as <-.
  assert (ROW : forall i, i < n -> exists u v ra' dec' a s z k, behind n seed i u v /\ sky_position true u (1 - v) ra' dec' /\
    cell_at o0 "time" i = Some (CNum (5 / 100 * INR i)) /\ cell_at o0 "ra" i = Some (CNum ra') /\ cell_at o0 "dec" i = Some (CNum dec') /\
    (cell_at o0 "airmass" i = Some (CNum a) /\ 13 / 10 <= a < 17 / 10)%R /\ cell_at o0 "filter" i = Some (CStr s) /\ In s ["u"; "g"; "r"; "i"; "z"; "y"] /\
    cell_at o0 "exptime" i = Some (CNum 29) /\ dget s lsst_zp = Some z /\ dget s lsst_ext = Some k).
  { intros i Hi. destruct (behind_some n seed i HU Hi) as (u & v & B & _). destruct (SP i u v (proj1 B) (proj2 B)) as (a0 & d0 & A1 & A2 & A3).
    destruct (AM i Hi) as (a & A4 & A5 & A6). destruct (FL i Hi) as (s & A7 & A8). destruct (KN s A8) as (z & k & K1 & K2). exists u, v, a0, d0, a, s, z, k.
    split; auto. split; auto.
    split; [rewrite (CA "time" (nums tt)) by (rewrite EC; reflexivity); apply nums_at; unfold tt; apply (map_nth_error (fun k => (5 / 100 * INR k)%R)); now apply seq_at|].
    split; [rewrite (CA "ra" (nums ra)) by (rewrite EC; reflexivity); now apply nums_at|].
    split; [rewrite (CA "dec" (nums dec)) by (rewrite EC; reflexivity); now apply nums_at|].
    split; [split; [rewrite (CA "airmass" (nums am)) by (rewrite EC; reflexivity); now apply nums_at|lra]|].
    split; [rewrite (CA "filter" fl) by (rewrite EC; reflexivity); exact A7|]. split; auto.
    split; [rewrite (CA "exptime" (nums (repeat 29%R n))) by (rewrite EC; reflexivity); apply nums_at; now apply repeat_at|]. auto. }
  assert (KEEP : forall c i x, cell_at o0 c i = Some x -> cell_at o c i = Some x).
  { intros c i x HC. rewrite (gr_cells _ _ GR c i); [exact HC|]. cbn [ob_frame]. apply dget_keys. unfold cell_at in HC. destruct (dget c (f_cols (ob_frame o0))); [discriminate|discriminate HC]. }
  split.
  - intros c. split.
    + intros Hc. destruct (CO c Hc) as [->|H]; [cbn; tauto|]. unfold columns, dkeys in H. rewrite EC in H. cbn in H. cbn. tauto.
    + assert (H0 : forall c, In c ["time"; "ra"; "dec"; "airmass"; "filter"; "exptime"] -> In c (columns (ob_frame o))).
      { intros c' Hc. apply (gr_cols _ _ GR). cbn [ob_frame]. unfold columns, dkeys. rewrite EC. exact Hc. }
      intros Hc. cbn in Hc. destruct Hc as [<-|[<-|[<-|[<-|[<-|[<-|[<-|[]]]]]]]]; try (apply H0; cbn; tauto).
      destruct (ROW 0 ltac:(lia)) as (u & v & a0 & d0 & a & s & z & k & _ & _ & _ & _ & _ & [R1 _] & R2 & _ & R3 & K1 & K2).
      pose proof (ZP 0 s a 29%R z k R2 R1 R3 ltac:(lra) K1 K2) as Z. unfold cell_at in Z. apply dget_keys. destruct (dget "zp" (f_cols (ob_frame o))); [discriminate|discriminate Z].
  - intros i Hi. destruct (ROW i Hi) as (u & v & a0 & d0 & a & s & z & k & R0 & R1 & R2 & R3 & R4 & [R5 R6] & R7 & R8 & R9 & K1 & K2).
    exists u, v, a0, d0, a, s, z, k. split; auto. split; auto. split; auto. split; auto. split; auto. split; auto. split; auto. split; auto. split; auto. split; auto. split; auto.
    apply (ZP i s a 29%R z k R7 R5 R9); auto. lra.
Qed.
Theorem C111_refused : forall num seed, (num <= 0)%Z -> create_random_opsim num seed = Err ValueError /\ create_random_ztf_obs_data num seed = Err ValueError.
Proof. intros num seed H. unfold RandomSurveyModel.create_random_opsim, RandomSurveyModel.create_random_ztf_obs_data. replace (num <=? 0)%Z with true by (symmetry; now apply Z.leb_le). auto. Qed.

(** The same for ZTF: the data is accepted by the ZTF table, no row is dropped, every row has a zero point, and the error of every non-negative flux is a positive number. *)
Theorem C111_ztf : forall num seed, unit_spec unit_draws -> int_spec int_draws -> (1 <= num)%Z -> exists f,
  create_random_ztf_obs_data num seed = Ok f /\
  forall mjd, exists o, ztf_make mjd f None [] [] None = Ok o /\ nrows (ob_frame o) = Z.to_nat num /\ tinv o /\
  (forall i, i < Z.to_nat num -> exists u v ra dec m sky w s z, behind (Z.to_nat num) seed i u v /\ sky_position true u (1 - v) ra dec /\
    cell_at o "time" i = Some (CNum (mjd "2018-03-25 06:04:40.000")) /\ cell_at o "ra" i = Some (CNum ra) /\ cell_at o "dec" i = Some (CNum dec) /\
    (cell_at o "maglim" i = Some (CNum m) /\ 19 <= m < 21)%R /\ (cell_at o "sky" i = Some (CNum sky) /\ 100 <= sky < 200)%R /\ (cell_at o "fwhm" i = Some (CNum w) /\ 1 <= w < 3)%R /\
    cell_at o "filter" i = Some (CStr s) /\ In s ["g"; "r"; "i"] /\ cell_at o "exptime" i = Some (CNum 30) /\
    zp_from_maglim m sky w ztf_gain ztf_read ztf_dark 30 1 = Some z /\ cell_at o "zp" i = Some (CNum (mag2flux z))) /\
  (forall flux index, length flux = length index -> (forall i, In i index -> i < Z.to_nat num) -> (forall x, In x flux -> (0 <= x)%R) ->
    exists out, ztf_errors o flux index = Ok out /\ length out = length index /\ forall j v, nth_error out j = Some v -> exists e, v = Some e /\ (0 < e)%R).
Proof.
  intros num seed HU HI HN. set (n := Z.to_nat num). assert (N1 : 1 <= n) by (unfold n; lia). unfold RandomSurveyModel.create_random_ztf_obs_data.
  replace (num <=? 0)%Z with false by (symmetry; apply Z.leb_gt; lia). fold n. cbv zeta.
  destruct (sphere_at unit_draws HU n (start_rng seed)) as (ra & dec & g1 & -> & LR & LD & _ & SP).
  destruct (uniform_at unit_draws HU 19 21 n g1 ltac:(lra)) as (ml & g2 & -> & LM & _ & _ & ML).
  destruct (uniform_at unit_draws HU 100 200 n g2 ltac:(lra)) as (sk & g3 & -> & LS & _ & _ & SK).
  destruct (uniform_at unit_draws HU 1 3 n g3 ltac:(lra)) as (fw & g4 & -> & LW & _ & _ & FW).
  destruct (choice_at int_draws HI ["g"; "r"; "i"] n g4 ltac:(discriminate)) as (fl & g5 & -> & LF & FL).
  assert (LN : forall l, length (nums l) = length l) by (intros; unfold nums; now rewrite map_length).
  rewrite (same_lengths n) by (repeat constructor; cbn [snd]; rewrite ?LN, ?repeat_length; auto).
  set (dt := repeat (CStr "2018-03-25 06:04:40.000") n).
  change [("obsdate", dt); ("ra", nums ra); ("dec", nums dec); ("maglim", nums ml); ("scibckgnd", nums sk); ("fwhm", nums fw); ("filter", fl); ("exptime", nums (repeat 30%R n))]
    with (ztf_cols dt (nums ra) (nums dec) (nums ml) (nums sk) (nums fw) fl (nums (repeat 30%R n))).
  set (f := mkFrame (seq 0 n) (ztf_cols dt (nums ra) (nums dec) (nums ml) (nums sk) (nums fw) fl (nums (repeat 30%R n)))).
  exists f. split; [reflexivity|]. intros mjd.
  assert (FO : frame_ok f).
  { split; [unfold columns, f, ztf_cols, dkeys; cbn; repeat constructor; cbn; intuition discriminate|]. unfold f, nrows. cbn [f_cols f_labels]. rewrite seq_length. unfold ztf_cols, dt.
    repeat constructor; cbn [snd]; rewrite ?LN, ?repeat_length; auto. }
  destruct (ztf_base mjd (seq 0 n) dt (nums ra) (nums dec) (nums ml) (nums sk) (nums fw) fl (nums (repeat 30%R n))) as (o0 & E0 & EL & EC & EZ). fold f in E0.
  assert (ND : NoDup (dkeys (ztf_map None))) by (cbn; repeat constructor; cbn; intuition discriminate).
  assert (NRo : nrows (ob_frame o0) = n) by (unfold nrows; rewrite EL; apply seq_length).
  assert (CA : forall c l i, dget c (f_cols (ob_frame o0)) = Some l -> cell_at o0 c i = nth_error l i) by (intros c l i H; unfold cell_at; now rewrite H).
  destruct (C73_accepts mjd f None [] [] None o0 FO ND E0 EZ) as [[_ ACC] _]. destruct ACC as (o & MK).
  { unfold columns, dkeys. rewrite EC. cbn. intuition. }
  exists o. split; [exact MK|]. pose proof (ztf_made mjd f None [] [] None o0 o FO ND E0 EZ MK) as ZT.
  assert (ROW : forall i, i < n -> exists u v ra' dec' m sky w s, behind n seed i u v /\ sky_position true u (1 - v) ra' dec' /\
    cell_at o0 "time" i = Some (CNum (mjd "2018-03-25 06:04:40.000")) /\ cell_at o0 "ra" i = Some (CNum ra') /\ cell_at o0 "dec" i = Some (CNum dec') /\
    (cell_at o0 "maglim" i = Some (CNum m) /\ 19 <= m < 21)%R /\ (cell_at o0 "sky" i = Some (CNum sky) /\ 100 <= sky < 200)%R /\ (cell_at o0 "fwhm" i = Some (CNum w) /\ 1 <= w < 3)%R /\
    cell_at o0 "filter" i = Some (CStr s) /\ In s ["g"; "r"; "i"] /\ cell_at o0 "exptime" i = Some (CNum 30)).
  { intros i Hi. destruct (behind_some n seed i HU Hi) as (u & v & B & _). destruct (SP i u v (proj1 B) (proj2 B)) as (a0 & d0 & A1 & A2 & A3).
    destruct (ML i Hi) as (m & M1 & M2 & M3). destruct (SK i Hi) as (sky & S1 & S2 & S3). destruct (FW i Hi) as (w & W1 & W2 & W3). destruct (FL i Hi) as (s & A7 & A8).
    exists u, v, a0, d0, m, sky, w, s. split; auto. split; auto.
    split; [rewrite (CA "time" (map (fun c => match c with CStr s => CNum (mjd s) | c => c end) dt)) by (rewrite EC; reflexivity); unfold dt; rewrite nth_error_map, repeat_at by auto; reflexivity|].
    split; [rewrite (CA "ra" (nums ra)) by (rewrite EC; reflexivity); now apply nums_at|].
    split; [rewrite (CA "dec" (nums dec)) by (rewrite EC; reflexivity); now apply nums_at|].
    split; [split; [rewrite (CA "maglim" (nums ml)) by (rewrite EC; reflexivity); now apply nums_at|lra]|].
    split; [split; [rewrite (CA "sky" (nums sk)) by (rewrite EC; reflexivity); now apply nums_at|lra]|].
    split; [split; [rewrite (CA "fwhm" (nums fw)) by (rewrite EC; reflexivity); now apply nums_at|lra]|].
    split; [rewrite (CA "filter" fl) by (rewrite EC; reflexivity); exact A7|]. split; auto.
    rewrite (CA "exptime" (nums (repeat 30%R n))) by (rewrite EC; reflexivity). apply nums_at. now apply repeat_at. }
  assert (WW : with_width o0 = seq 0 n).
  { unfold with_width. rewrite NRo. assert (Q : forall l, (forall i, In i l -> has_width o0 i = true) -> filter (has_width o0) l = l).
    { induction l as [|i l IH]; intros H; cbn; auto. rewrite (H i) by (now left). f_equal. apply IH. intros; apply H; now right. }
    apply Q. intros i Hi. apply in_seq in Hi. destruct (ROW i ltac:(lia)) as (u & v & a0 & d0 & m & sky & w & s & R). destruct R as (_ & _ & _ & _ & _ & _ & _ & [R _] & _).
    unfold has_width. now rewrite R. }
  assert (WI : forall i, i < n -> nth_error (with_width o0) i = Some i) by (intros; rewrite WW; now apply seq_at).
  assert (FULL : forall i, i < n -> exists u v ra' dec' m sky w s z, behind n seed i u v /\ sky_position true u (1 - v) ra' dec' /\
    cell_at o "time" i = Some (CNum (mjd "2018-03-25 06:04:40.000")) /\ cell_at o "ra" i = Some (CNum ra') /\ cell_at o "dec" i = Some (CNum dec') /\
    (cell_at o "maglim" i = Some (CNum m) /\ 19 <= m < 21)%R /\ (cell_at o "sky" i = Some (CNum sky) /\ 100 <= sky < 200)%R /\ (cell_at o "fwhm" i = Some (CNum w) /\ 1 <= w < 3)%R /\
    cell_at o "filter" i = Some (CStr s) /\ In s ["g"; "r"; "i"] /\ cell_at o "exptime" i = Some (CNum 30) /\
    zp_from_maglim m sky w ztf_gain ztf_read ztf_dark 30 1 = Some z /\ cell_at o "zp" i = Some (CNum (mag2flux z))).
  { intros i Hi. destruct (ROW i Hi) as (u & v & a0 & d0 & m & sky & w & s & R0 & R1 & R2 & R3 & R4 & [R5 B5] & [R6 B6] & [R7 B7] & R8 & R9 & R10).
    assert (TH : forall c x, c <> "zp" -> cell_at o0 c i = Some x -> (forall t, x = CStr t -> t <> "") -> cell_at o c i = Some x).
    { intros c x Hc HC HT. rewrite (zt_cells _ _ _ ZT c i i Hc (WI i Hi)), HC. cbn. f_equal. destruct x as [r|[|ch t]|]; auto. exfalso. now apply (HT ""). }
    destruct (C73_zero_points mjd f None [] [] None o0 o FO ND E0 EZ MK i i m sky w 30%R (WI i Hi) R5 R6 R7 R10 ltac:(lra) ltac:(lra)) as (z & Z1 & Z2).
    exists u, v, a0, d0, m, sky, w, s, z. split; auto. split; auto.
    split; [apply TH; [discriminate|assumption|intros ? X; discriminate X]|]. split; [apply TH; [discriminate|assumption|intros ? X; discriminate X]|]. split; [apply TH; [discriminate|assumption|intros ? X; discriminate X]|]. split; [split; [apply TH; [discriminate|assumption|intros ? X; discriminate X]|lra]|].
    split; [split; [apply TH; [discriminate|assumption|intros ? X; discriminate X]|lra]|]. split; [split; [apply TH; [discriminate|assumption|intros ? X; discriminate X]|lra]|].
    split; [apply TH; [discriminate|assumption|intros t E; injection E as <-; intros ->; cbn in R9; intuition discriminate]|]. split; auto. split; [apply TH; [discriminate|assumption|intros ? X; discriminate X]|]. auto. }
  split; [rewrite (zt_rows _ _ _ ZT), WW; apply seq_length|]. split; [apply (zt_inv _ _ _ ZT)|]. split; [exact FULL|].
  intros flux index LE HX HP.
  assert (NRn : nrows (ob_frame o) = n) by (rewrite (zt_rows _ _ _ ZT), WW; apply seq_length).
  destruct (C73_errors o flux index ztf_gain ztf_read ztf_dark) as (out & O1 & O2 & O3); auto.
  { intros i Hi. rewrite NRn. now apply HX. }
  { intros c Hc. apply (zt_cols _ _ _ ZT). unfold columns, dkeys. rewrite EC. cbn. cbn in Hc. intuition. }
  { rewrite (zt_values _ _ _ ZT). reflexivity. } { rewrite (zt_values _ _ _ ZT). reflexivity. } { rewrite (zt_values _ _ _ ZT). reflexivity. }
  exists out. split; auto. split; auto. intros j v Hv.
  destruct (nth_error index j) as [i|] eqn:EI; [|apply nth_error_None in EI; assert (j < length out) by (apply nth_error_Some; congruence); lia].
  destruct (nth_error flux j) as [x|] eqn:EX; [|apply nth_error_None in EX; assert (j < length index) by (apply nth_error_Some; congruence); lia].
  assert (Hi : i < n) by (apply HX; eapply nth_error_In; eauto). assert (Hx : (0 <= x)%R) by (apply HP; eapply nth_error_In; eauto).
  destruct (FULL i Hi) as (u & v0 & a0 & d0 & m & sky & w & s & z & _ & _ & _ & _ & _ & _ & [R6 B6] & [R7 B7] & _ & _ & R10 & _ & R11).
  rewrite (O3 j x i 30%R w sky (mag2flux z) EX EI R10 R7 R6 R11) in Hv. injection Hv as <-. pose proof (C53_positive z) as PZ.
  unfold poisson_std. replace (Reqb (mag2flux z) 0) with false by (symmetry; apply Reqb_false; lra). cbv zeta.
  set (area := (PI / (2 * ln 2) * w ^ 2)%R).
  assert (L2 : (0 < ln 2)%R) by (rewrite <- ln_1; apply ln_increasing; lra). pose proof PI_RGT_0 as PP.
  assert (PA : (0 < area)%R). { unfold area. apply Rmult_lt_0_compat; [apply Rdiv_lt_0_compat; lra|]. apply pow_lt. lra. }
  set (total := (x / mag2flux z + sky * ztf_gain * area + ztf_read * ztf_read * area * 1 + ztf_dark * 30 * area)%R).
  assert (PT : (0 < total)%R).
  { unfold total, ztf_gain, ztf_read, ztf_dark. assert (0 <= x / mag2flux z)%R by (apply Rmult_le_pos; auto; left; now apply Rinv_0_lt_compat).
    assert (0 <= sky * (62 / 10) * area)%R by (apply Rmult_le_pos; [apply Rmult_le_pos; lra|lra]). lra. }
  match goal with |- context [Rltb ?t 0] => replace t with total by (unfold total, area; cbn [pow]; lra) end.
  replace (Rltb total 0) with false by (symmetry; apply Rltb_false; lra). eexists. split; [reflexivity|]. apply Rmult_lt_0_compat; auto. now apply sqrt_lt_R0.
Qed.

(** Every position lies on the sky, and the positions are uniform over the sphere: the pairs of numbers whose position is in a part of the sky between two right
    ascensions and two declinations form a rectangle whose area is the solid angle of the part over 4 pi. *)
Theorem C111_on_the_sky : forall num seed i u v ra dec, unit_spec unit_draws -> behind num seed i u v -> sky_position true u (1 - v) ra dec ->
  (0 <= ra < 360)%R /\ (-90 <= dec <= 90)%R.
Proof.
  intros num seed i u v ra dec HU [B1 B2] (-> & D & _). pose proof (HU num (start_rng seed)) as [_ F]. rewrite List.Forall_forall in F. pose proof (F u (nth_error_In _ _ B1)) as Hu.
  unfold full_turn in *. split; lra.
Qed.
Theorem C111_uniform : forall a1 a2 d1 d2, (0 <= a1 <= a2)%R -> (a2 <= 360)%R -> (-90 <= d1 <= d2)%R -> (d2 <= 90)%R ->
  exists u1 u2 v1 v2, (0 <= u1 <= u2)%R /\ (u2 <= 1)%R /\ (0 <= v1 <= v2)%R /\ (v2 <= 1)%R /\
    (forall u v ra dec, sky_position true u (1 - v) ra dec -> ((a1 <= ra <= a2)%R /\ (d1 <= dec <= d2)%R <-> (u1 <= u <= u2)%R /\ (v1 <= v <= v2)%R)) /\
    ((u2 - u1) * (v2 - v1) = RInt cos (d1 * PI / 180) (d2 * PI / 180) * (a2 * PI / 180 - a1 * PI / 180) / (4 * PI))%R.
Proof.
  intros a1 a2 d1 d2 HA1 HA2 HD1 HD2. destruct (C98_uniform true a1 a2 d1 d2) as (u1 & u2 & v1 & v2 & B1 & B2 & B3 & B4 & B5 & B6); unfold full_turn; try lra.
  exists u1, u2, (1 - v2)%R, (1 - v1)%R. split; auto. split; auto. split; [lra|]. split; [lra|]. split.
  - intros u v ra dec SP. rewrite (B5 u (1 - v)%R ra dec SP). split; intros [? ?]; split; lra.
  - replace (1 - v1 - (1 - v2))%R with (v2 - v1)%R by lra. exact B6.
Qed.

(** A random OpSim has no seeing, sky brightness and number of exposures: flux errors cannot be computed. *)
Theorem C111_opsim_errors_refuted : forall num seed o flux index, unit_spec unit_draws -> int_spec int_draws ->
  create_random_opsim num seed = Ok o -> (forall i, In i index -> i < Z.to_nat num) -> opsim_errors o flux index = Err KeyError.
Proof.
  intros num seed o flux index HU HI MK HX. assert (HN : (1 <= num)%Z).
  { destruct (Z_le_gt_dec num 0) as [H|H]; [|lia]. destruct (C111_refused num seed H) as [E _]. congruence. }
  destruct (C111_opsim num seed HU HI HN) as (o' & MK' & NR & _ & _ & PS & CO & _). assert (o' = o) by congruence. subst o'.
  unfold opsim_errors. replace (in_rows o index) with true.
  2:{ symmetry. apply forallb_forall. intros i Hi. apply Nat.ltb_lt. rewrite NR. auto. }
  cbn [negb]. assert (NS : dget "seeing" (f_cols (ob_frame o)) = None).
  { destruct (dget "seeing" (f_cols (ob_frame o))) eqn:E; auto. exfalso. assert (H : In "seeing" (columns (ob_frame o))) by (apply dget_keys; congruence). apply CO in H. cbn in H. intuition discriminate. }
  cbn [need_cols]. unfold need_col at 1. rewrite NS. cbn [bind].
  assert (VP : safe_number o "pixel_scale" = Ok (2 / 10)%R).
  { now apply safe_number_ok. }
  rewrite VP. reflexivity.
Qed.

(** [opsim_add_random_data]: a new column of numbers between the bounds; an existing column is kept (KeyError). *)
Theorem C111_add_random : forall o name lo hi g, unit_spec unit_draws -> (lo <= hi)%R ->
  match fst (opsim_add_random_data unit_draws o name lo hi g) with
  | Ok o' => ~ In name (columns (ob_frame o)) /\ nrows (ob_frame o') = nrows (ob_frame o) /\
      (forall i, i < nrows (ob_frame o) -> exists x, cell_at o' name i = Some (CNum x) /\ (lo <= x)%R /\ (lo < hi -> x < hi)%R) /\
      forall c i, c <> name -> cell_at o' c i = cell_at o c i
  | Err e => e = KeyError /\ In name (columns (ob_frame o))
  end.
Proof.
  intros o name lo hi g HU HB. unfold opsim_add_random_data. destruct (uniform_at unit_draws HU lo hi (nrows (ob_frame o)) g HB) as (l & g' & -> & LL & _ & _ & AT). cbn [fst].
  destruct (add_column o name (ColList (nums l)) false) as [o'|e] eqn:E.
  - destruct (C66_add_column _ _ _ _ _ E) as (A1 & _ & A3 & A4 & _). split.
    { intros H. destruct (C66_add_column_accepts o name (ColList (nums l)) false) as [X _]. rewrite X in E; [discriminate|now apply dmem_true|auto]. }
    split; auto. split; auto. intros i Hi. destruct (AT i Hi) as (x & X1 & X2). exists x. split; auto. rewrite (proj1 (A3 i Hi)). now apply nums_at.
  - unfold add_column in E. cbv zeta in E. destruct (dmem name (f_cols (ob_frame o))) eqn:EM; cbn [andb negb] in E.
    + injection E as <-. split; auto. now apply dmem_true.
    + unfold nums in E. rewrite map_length, LL, Nat.eqb_refl in E. discriminate.
Qed.
End C111.
(** With a seed the tables do not depend on the system's entropy; without one they do not depend on what seeds give. *)
Theorem C111_seed : forall G (seeded seeded' : Z -> G) (entropy entropy' : G) unit_draws int_draws num z,
  create_random_opsim seeded entropy unit_draws int_draws num (Some z) = create_random_opsim seeded entropy' unit_draws int_draws num (Some z) /\
  create_random_ztf_obs_data seeded entropy unit_draws int_draws num (Some z) = create_random_ztf_obs_data seeded entropy' unit_draws int_draws num (Some z) /\
  create_random_opsim seeded entropy unit_draws int_draws num None = create_random_opsim seeded' entropy unit_draws int_draws num None /\
  create_random_ztf_obs_data seeded entropy unit_draws int_draws num None = create_random_ztf_obs_data seeded' entropy unit_draws int_draws num None.
Proof. intros. repeat split; reflexivity. Qed.

(** *** Concrete: a generator that counts. *)
Definition ex_ints (m n g : nat) : list nat * nat := (map (fun i => (g + i) mod m) (seq 0 n), g + n).
Lemma ex_ints_spec : int_spec ex_ints.
Proof.
  intros m n g. unfold ex_ints. cbn [fst]. split; [now rewrite map_length, seq_length|]. intros Hm. apply List.Forall_forall. intros x Hx. apply in_map_iff in Hx. destruct Hx as (i & <- & _).
  apply Nat.mod_upper_bound. lia.
Qed.
Example C111_case : exists o, create_random_opsim Z.to_nat 7 ex_units ex_ints 3 (Some 0%Z) = Ok o /\ cell_at o "ra" 1 = Some (CNum 120) /\ nrows (ob_frame o) = 3.
Proof.
  destruct (C111_opsim Z.to_nat 7 ex_units ex_ints 3 (Some 0%Z) ex_units_spec ex_ints_spec ltac:(lia)) as (o & MK & NR & _ & _ & _ & _ & ROW). exists o. split; auto. split; auto.
  destruct (ROW 1) as (u & v & ra & dec & a & s & z & k & [B1 B2] & SP & _ & R & _); [cbn; lia|]. cbn in B1. injection B1 as <-. destruct SP as (-> & _). rewrite R. unfold full_turn. do 2 f_equal. lra.
Qed.
