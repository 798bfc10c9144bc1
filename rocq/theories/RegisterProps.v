(** C113: loading and registering LSST passbands (src/lightcurvelynx/example_runs/simulate_snia.py 88-131). *)
From Coq Require Import Reals String Ascii List Bool Arith ZArith Lia Lra.
From Verif Require Import Base BaseFacts RealBase PassbandModel PassbandProofs PassbandProps PassbandGroupProps DownloadModel DownloadProps PassbandFileModel PassbandFileProofs PassbandFileProps PassbandDefined RegisterModel.
Import ListNotations.
Open Scope string_scope.
Open Scope list_scope.
Open Scope nat_scope.

(** ** Specification *)
(** The passband that the file of a band gives: nanometers, grid step 1 Angstrom, quantile 0.001. *)
Definition lsst_band (parse : string -> Z -> content) (w : world) (dir : path) (band : string) (p : passband) : Prop :=
  exists c raw u, w_file w (dir ++ ["LSST"; (band ++ ".dat")%string]) = Some c /\ holds parse (band ++ ".dat")%string c Nm raw u /\
    pb_make raw "LSST" band (Some 1%R) (Some (1 / 1000)%R) u = Ok p.

(** ** Proofs *)
Lemma band_file : forall parse base w dir band p w', from_file parse base w (band_params dir band) = (Ok p, w') <-> w' = w /\ lsst_band parse w dir band p.
Proof.
  intros parse base w dir band p w'. rewrite from_file_spec. unfold band_params, lsst_band. cbn [table_path f_path f_url f_force f_units f_survey f_filter f_delta f_q].
  assert (FN : file_name (dir ++ ["LSST"; (band ++ ".dat")%string]) = (band ++ ".dat")%string).
  { unfold file_name. replace (dir ++ ["LSST"; (band ++ ".dat")%string]) with ((dir ++ ["LSST"]) ++ [(band ++ ".dat")%string]) by (now rewrite <- app_assoc). apply last_last. }
  rewrite FN. split.
  - intros (E & X). unfold download in E. destruct (negb false && _)%bool; [injection E as <-; auto|discriminate].
  - intros (-> & X). split; auto. destruct X as (c & _ & _ & HC & _). rewrite C89_present by (eapply file_exists; eauto). reflexivity.
Qed.
Lemma band_kept : forall parse base w dir band r w', from_file parse base w (band_params dir band) = (r, w') -> w' = w.
Proof.
  intros parse base w dir band r w' H. unfold from_file, band_params, download in H. cbn [table_path f_path f_url f_force f_units] in H. cbv zeta in H.
  destruct (negb false && _)%bool; now injection H as _ <-.
Qed.
Lemma bands_load : forall parse base dir l w r w', load_all parse base w (map (band_params dir) l) = (r, w') ->
  w' = w /\ forall ps, r = Ok ps <-> Forall2 (lsst_band parse w dir) l ps.
Proof.
  intros parse base dir. induction l as [|b l IH]; intros w r w' H; cbn [map load_all] in H.
  - injection H as <- <-. split; auto. intros ps. split; [intros E; injection E as <-; constructor|intros F; now inversion F].
  - destruct (from_file parse base w (band_params dir b)) as [[p|e] w1] eqn:EF; pose proof (band_kept _ _ _ _ _ _ _ EF); subst w1.
    + assert (HP := proj2 (proj1 (band_file _ _ _ _ _ _ _) EF)). destruct (load_all parse base w (map (band_params dir) l)) as [r2 w2] eqn:EL. destruct (IH _ _ _ EL) as [-> F2].
      assert (W : w' = w) by (destruct r2; now injection H as _ <-). split; auto. intros ps. split.
      * destruct r2 as [ps2|e2]; injection H as <- <-; [|discriminate]. intros E. injection E as <-. constructor; auto. now apply F2.
      * intros F. inversion F as [|? p' ? ps' HP' HF]; subst. apply F2 in HF. subst r2. injection H as <-.
        assert (EF' := proj2 (band_file parse base w dir b p' w) (conj eq_refl HP')). rewrite EF in EF'. now injection EF' as <-.
    + injection H as <- <-. split; auto. intros ps. split; [discriminate|]. intros F. inversion F as [|? p' ? ps' HP' HF]; subst. assert (EF' := proj2 (band_file parse base w dir b p' w) (conj eq_refl HP')).
      rewrite EF in EF'. discriminate.
Qed.
Lemma band_names : forall parse w dir b p, lsst_band parse w dir b p -> built_band p /\ pb_survey p = "LSST" /\ pb_filter p = b /\ pb_full p = ("LSST_" ++ b)%string.
Proof.
  intros parse w dir b p (c & raw & u & _ & _ & HM). split; [now exists raw, "LSST", b, (Some 1%R), (Some (1 / 1000)%R), u|].
  destruct (make_inv _ _ _ _ _ _ _ HM) as (t0 & _ & _ & _ & _ & A & B). unfold pb_full. rewrite A, B. auto.
Qed.
Lemma band_fun : forall parse w dir b p q, lsst_band parse w dir b p -> lsst_band parse w dir b q -> p = q.
Proof.
  intros parse w dir b p q H1 H2. destruct (band_file parse [] w dir b p w) as [_ A]. destruct (band_file parse [] w dir b q w) as [_ B].
  assert (E1 := A (conj eq_refl H1)). assert (E2 := B (conj eq_refl H2)). congruence.
Qed.
Lemma prefix_same : forall s a b, (s ++ a)%string = (s ++ b)%string -> a = b.
Proof. induction s as [|c s IH]; cbn; intros a b H; auto. injection H as H. auto. Qed.
Lemma registered : forall (bands : dict passband) r, NoDup (dkeys bands) ->
  (forall k p, In (k, p) bands -> fold_left (fun r fb => register ("lightcurvelynx_" ++ fst fb)%string (pb_table (snd fb)) r) bands r ("lightcurvelynx_" ++ k)%string = Some (pb_table p)) /\
  (forall x, (forall k, In k (dkeys bands) -> x <> ("lightcurvelynx_" ++ k)%string) -> fold_left (fun r fb => register ("lightcurvelynx_" ++ fst fb)%string (pb_table (snd fb)) r) bands r x = r x).
Proof.
  induction bands as [|[k0 p0] bands IH]; intros r ND; cbn [fold_left fst snd]; [split; [intros ? ? []|auto]|].
  cbn in ND. inversion ND as [|? ? N1 N2]; subst. destruct (IH (register ("lightcurvelynx_" ++ k0)%string (pb_table p0) r) N2) as [I1 I2]. split.
  - intros k p [E|HI]; [|auto]. injection E as <- <-. rewrite I2.
    + unfold register. now rewrite String.eqb_refl.
    + intros k HK E. apply prefix_same in E. subst k. contradiction.
  - intros x HX. rewrite I2 by (intros k HK; apply HX; now right). unfold register. destruct (String.eqb_spec x ("lightcurvelynx_" ++ k0)); auto. exfalso. apply (HX k0); auto. now left.
Qed.

(** ** C113 *)
(** A success: the group holds exactly the passbands of the files asked for, each is registered under its name, every other entry of the registry
    and the files are as before. *)
Theorem C113_registers : forall parse base w r dir to_use g w' r', load_and_register parse base w r dir to_use = (Ok g, w', r') ->
  w' = w /\ to_use <> [] /\
  (forall p, In p (members g) <-> exists band, In band to_use /\ lsst_band parse w dir band p) /\
  (forall band, In band to_use -> exists p, lsst_band parse w dir band p /\ r' ("lightcurvelynx_LSST_" ++ band)%string = Some (pb_table p)) /\
  (forall x, (forall band, In band to_use -> x <> ("lightcurvelynx_LSST_" ++ band)%string) -> r' x = r x).
Proof.
  intros parse base w r dir to_use g w' r' H. unfold load_and_register in H. destruct to_use as [|b0 l0] eqn:EU; [discriminate|]. rewrite <- EU in *. assert (NE : to_use <> []) by congruence. clear EU b0 l0.
  unfold group_load in H. destruct (load_all parse base w (map (band_params dir) to_use)) as [[ps|e] w1] eqn:EL; [|discriminate].
  destruct (bands_load _ _ _ _ _ _ _ EL) as [-> F]. assert (F2 := proj1 (F ps) eq_refl). clear F EL.
  destruct (pg_make ps None) as [g0|e] eqn:EG; [|discriminate]. injection H as <- <- <-. split; auto. split; auto.
  destruct (make_bands _ _ _ EG) as (EB & _). destruct (collect_keyed ps) as [K1 K2]. rewrite Forall_forall in K2.
  assert (MEM : forall p, In p (map snd (collect ps)) <-> exists band, In band to_use /\ lsst_band parse w dir band p).
  { intros p. rewrite collect_In. split.
    - intros (a & b & -> & _). destruct (Forall2_In_r _ _ _ _ _ p F2) as (band & HB & HP); [apply in_or_app; right; now left|]. eauto.
    - intros (band & HB & HP). destruct (Forall2_In_l _ _ _ _ _ band F2 HB) as (q & HQ & HP2). pose proof (band_fun _ _ _ _ _ _ HP HP2). subst q.
      assert (SAME : forall q, In q ps -> pb_full q = pb_full p -> q = p).
      { intros q HI HF. destruct (Forall2_In_r _ _ _ _ _ q F2 HI) as (b2 & _ & HP3). destruct (band_names _ _ _ _ _ HP) as (_ & _ & _ & N1). destruct (band_names _ _ _ _ _ HP3) as (_ & _ & _ & N2).
        rewrite N1, N2 in HF. apply prefix_same in HF. subst b2. exact (band_fun _ _ _ _ _ _ HP3 HP). }
      clear - HQ SAME. induction ps as [|x ps IH]; [destruct HQ|]. destruct (in_dec (fun a b => string_dec a b) (pb_full p) (map pb_full ps)) as [HD|HD].
      + apply in_map_iff in HD. destruct HD as (q & EF & HI). assert (q = p) by (apply SAME; auto; now right). subst q.
        destruct IH as (a & b & -> & N); auto; [intros; apply SAME; auto; now right|]. exists (x :: a), b. auto.
      + destruct HQ as [->|HQ]; [|destruct HD; now apply in_map]. exists [], ps. split; auto. intros q HI EF. apply HD. rewrite <- EF. now apply in_map. }
  split; [unfold members; rewrite EB; exact MEM|].
  destruct (registered (pg_bands g0) r) as [R1 R2]; [rewrite EB; exact K1|]. split.
  - intros band HB. destruct (Forall2_In_l _ _ _ _ _ band F2 HB) as (p & HI & HP). exists p. split; auto. destruct (band_names _ _ _ _ _ HP) as (_ & _ & _ & N1).
    change ("lightcurvelynx_LSST_" ++ band)%string with ("lightcurvelynx_" ++ ("LSST_" ++ band))%string. rewrite <- N1. apply R1. rewrite EB.
    assert (HM : In p (map snd (collect ps))) by (apply MEM; eauto). apply in_map_iff in HM. destruct HM as ([k q] & E & HIN). cbn in E. subst q. pose proof (K2 _ HIN) as EK. cbn in EK. now subst k.
  - intros x HX. apply R2. rewrite EB. intros k HK E. unfold dkeys in HK. apply in_map_iff in HK. destruct HK as ([k' q] & E2 & HIN). cbn in E2. subst k'. pose proof (K2 _ HIN) as EK. cbn in EK. subst k.
    destruct (proj1 (MEM q)) as (band & HB & HP); [apply in_map_iff; exists (pb_full q, q); auto|]. destruct (band_names _ _ _ _ _ HP) as (_ & _ & _ & N1). rewrite N1 in E. exact (HX band HB E).
Qed.
(** It succeeds when every file is there and gives a passband. *)
Theorem C113_loads : forall parse base w r dir to_use, to_use <> [] -> (forall band, In band to_use -> exists p, lsst_band parse w dir band p) ->
  exists g r', load_and_register parse base w r dir to_use = (Ok g, w, r').
Proof.
  intros parse base w r dir to_use NE HB. unfold load_and_register. destruct to_use as [|b0 l0] eqn:EU; [congruence|]. rewrite <- EU in *. clear EU b0 l0.
  unfold group_load. destruct (load_all parse base w (map (band_params dir) to_use)) as [r0 w1] eqn:EL. destruct (bands_load _ _ _ _ _ _ _ EL) as [-> F]. clear EL.
  assert (X : exists ps, Forall2 (lsst_band parse w dir) to_use ps).
  { clear - HB. induction to_use as [|b l IH]; [exists []; constructor|]. destruct IH as [ps HP]; [intros; apply HB; now right|]. destruct (HB b (or_introl eq_refl)) as [p Hp]. exists (p :: ps). now constructor. }
  destruct X as [ps F2]. rewrite (proj2 (F ps) F2). assert (NP : ps <> []) by (intros ->; inversion F2; congruence).
  assert (BB : Forall built_band ps). { apply Forall_forall. intros p HP. destruct (Forall2_In_r _ _ _ _ _ _ F2 HP) as (b & _ & B). now apply band_names in B. }
  assert (EG : exists g, pg_make ps None = Ok g).
  { unfold pg_make. destruct ps as [|p0 ps0] eqn:EP; [congruence|]. rewrite <- EP in *. apply update_ok. apply collect_from_Forall; auto. eapply Forall_impl; [|exact BB]. apply built_good. }
  destruct EG as [g ->]. eauto.
Qed.
(** A failure: nothing is registered and no file changed; without bands it is a ValueError, so it is when the first file is missing. *)
Theorem C113_failure : forall parse base w r dir to_use e w' r', load_and_register parse base w r dir to_use = (Err e, w', r') -> w' = w /\ r' = r /\
  (to_use = [] \/ exists band, In band to_use /\ forall p, ~ lsst_band parse w dir band p).
Proof.
  intros parse base w r dir to_use e w' r' H. assert (KEEP : w' = w /\ r' = r).
  { unfold load_and_register in H. destruct to_use as [|b0 l0] eqn:EU; [now injection H as _ <- <-|]. rewrite <- EU in *. unfold group_load in H.
    destruct (load_all parse base w (map (band_params dir) to_use)) as [[ps|e1] w1] eqn:EL; destruct (bands_load _ _ _ _ _ _ _ EL) as [-> _].
    - destruct (pg_make ps None); [discriminate|]. now injection H as _ <- <-.
    - now injection H as _ <- <-. }
  destruct KEEP as [-> ->]. split; auto. split; auto. destruct to_use as [|b0 l0] eqn:EU; [now left|]. right. rewrite <- EU in *.
  destruct (Forall_Exists_dec (fun band => exists p, from_file parse base w (band_params dir band) = (Ok p, w))) with (l := to_use) as [F|X].
  - intros band. destruct (from_file parse base w (band_params dir band)) as [[p|e1] w1] eqn:EF; pose proof (band_kept _ _ _ _ _ _ _ EF); subst w1; [left; eauto|right; intros [p E]; congruence].
  - exfalso. rewrite Forall_forall in F. destruct (C113_loads parse base w r dir to_use) as (g & r2 & E); [congruence| |congruence].
    intros band HB. destruct (F band HB) as [p HP]. exists p. now apply band_file in HP.
  - apply Exists_exists in X. destruct X as (band & HB & HN). exists band. split; auto. intros p HP. apply HN. exists p. apply band_file. auto.
Qed.
Theorem C113_missing : forall parse base w r dir band rest, exists_ w (dir ++ ["LSST"; (band ++ ".dat")%string]) = false ->
  load_and_register parse base w r dir [] = (Err ValueError, w, r) /\ load_and_register parse base w r dir (band :: rest) = (Err ValueError, w, r).
Proof.
  intros parse base w r dir band rest H. split; [reflexivity|]. unfold load_and_register, group_load. cbn [map load_all]. unfold from_file, band_params. cbn [table_path f_path f_url f_force f_units]. cbv zeta.
  destruct (C89_refused w _ false H) as (-> & _). reflexivity.
Qed.
Definition c113_files (p : path) : option Z := if path_eqb p ["data"; "LSST"; "g.dat"] then Some 1%Z else None.
Definition c113_world : world := mkW c113_files (fun _ => false) (fun _ => None) ["home"] ["cache"].
Definition c113_parse (sfx : string) (c : Z) : content := Text (map (fun p => [fst p; snd p]) flat_rows).
Example C113_case : exists g r', load_and_register c113_parse ["base"] c113_world (fun _ => None) ["data"] ["g"; "g"] = (Ok g, c113_world, r') /\
  (exists p, In p (members g) /\ pb_full p = "LSST_g" /\ r' "lightcurvelynx_LSST_g" = Some (pb_table p)) /\ r' "lightcurvelynx_LSST_r" = None.
Proof.
  assert (LB : exists p, lsst_band c113_parse c113_world ["data"] "g" p).
  { destruct (C29_defined_case "LSST" "g") as [p HP]. exists p. exists 1%Z, flat_rows, Nm. split; [reflexivity|]. split; [|exact HP].
    replace flat_rows with (map (fun r => (nth 0 r 0%R, nth 1 r 0%R)) (map (fun p => [fst p; snd p]) flat_rows)) by reflexivity.
    apply holds_text; [cbn; auto|reflexivity|cbn; lia|]. repeat constructor. }
  destruct (C113_loads c113_parse ["base"] c113_world (fun _ => None) ["data"] ["g"; "g"]) as (g & r' & E); [discriminate|intros b [<-|[<-|[]]]; exact LB|].
  exists g, r'. split; auto. destruct (C113_registers _ _ _ _ _ _ _ _ _ E) as (_ & _ & M & R & K). split.
  - destruct (R "g" ltac:(now left)) as (p & HP & HR). exists p. split; [apply M; exists "g"; split; auto; now left|]. split; auto. now apply band_names in HP.
  - rewrite K; auto. intros b [<-|[<-|[]]]; discriminate.
Qed.
