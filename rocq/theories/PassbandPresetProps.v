(** Theorems C106, continued: presets and the SVO service. *)
From Coq Require Import Reals String Ascii List Bool Arith ZArith Lia Lra.
From Verif Require Import Base BaseFacts RealBase PassbandModel PassbandProofs PassbandProps PassbandGroupProps DownloadModel DownloadProps PassbandFileModel PassbandFileProofs PassbandFileProps.
Import ListNotations.
Open Scope string_scope.
Open Scope list_scope.
Open Scope nat_scope.

(** ** The LSST preset *)
Definition six : list string := ["u"; "g"; "r"; "i"; "z"; "y"].
(** [delta_wave] and [trim_quantile], with their defaults 5 Angstroms and 0.001. *)
Definition given (o : option (option R)) (default : R) : option R := match o with Some d => d | None => Some default end.
(** The file <dir>/LSST/<f>.dat is a text table in nanometers, and [p] the passband it makes. *)
Definition lsst_band (parse : string -> Z -> content) (w : world) (dir : path) (k : kwargs) (f : string) (p : passband) : Prop :=
  exists c rows, w_file w (dir ++ ["LSST"; (f ++ ".dat")%string]) = Some c /\ parse ".dat" c = Text rows /\ 2 <= length rows /\ Forall (fun r => length r = 2) rows /\
    pb_make (map (fun r => (nth 0 r 0%R, nth 1 r 0%R)) rows) "LSST" f (given (k_delta k) 5) (given (k_q k) (1 / 1000)) Nm = Ok p.
Definition data_dir (base : path) (table_dir : option path) : path := match table_dir with Some d => d | None => base ++ ["passbands"] end.

Lemma file_name_two : forall (d : path) a b, file_name (d ++ [a; b]) = b.
Proof. intros d a b. unfold file_name. change (d ++ [a; b]) with (d ++ ([a] ++ [b])). rewrite app_assoc. apply last_last. Qed.
Lemma lsst_suffix : forall f, In f six -> suffix (f ++ ".dat") = ".dat".
Proof. intros f [<-|[<-|[<-|[<-|[<-|[<-|[]]]]]]]; reflexivity. Qed.
Lemma lsst_file : forall parse base w dir k f p w', In f six -> from_file parse base w (lsst_params dir k f) = (Ok p, w') -> lsst_band parse w' dir k f p.
Proof.
  intros parse base w dir k f p w' HF H. apply from_file_spec in H. unfold lsst_params in H. cbn [table_path f_path f_url f_force f_units f_survey f_filter f_delta f_q] in H.
  destruct H as (_ & c & raw & u & HC & HH & HM). rewrite file_name_two in HH. destruct HH as [rows HS HP L F|a b un raw u HS HP HW HU]; rewrite (lsst_suffix f HF) in *.
  - exists c, rows. auto.
  - destruct HS as [H|[H|[H|[]]]]; discriminate.
Qed.
Lemma lsst_cached_file : forall parse base w dir k f p, In f six -> force_of k = false -> lsst_band parse w dir k f p -> from_file parse base w (lsst_params dir k f) = (Ok p, w).
Proof.
  intros parse base w dir k f p HF HK (c & rows & HC & HP & L & F & HM). eapply from_file_cached; [exact HK|exact HC| |exact HM]. cbn [lsst_params table_path f_path f_units].
  rewrite file_name_two. apply holds_text; rewrite ?(lsst_suffix f HF); auto. cbn [In]. tauto.
Qed.
Lemma lsst_full : forall parse w dir k f p, lsst_band parse w dir k f p -> built_band p /\ pb_full p = ("LSST_" ++ f)%string.
Proof.
  intros parse w dir k f p (c & rows & _ & _ & _ & _ & HM). split; [eexists _, _, _, _, _, _; exact HM|].
  destruct (make_inv _ _ _ _ _ _ _ HM) as (t0 & _ & _ & _ & _ & A & B). unfold pb_full. now rewrite A, B.
Qed.
Lemma Forall2_mono : forall A B (P Q : A -> B -> Prop) l m, (forall a b, In a l -> P a b -> Q a b) -> Forall2 P l m -> Forall2 Q l m.
Proof. intros A B P Q l m H F. induction F as [|a b l m HP F IH]; constructor; [apply H; auto; now left|]. apply IH. intros a' b' HI. apply H. now right. Qed.
Lemma map_full : forall (P : string -> passband -> Prop) s l ps, (forall f p, In f l -> P f p -> pb_full p = (s ++ f)%string) -> Forall2 P l ps -> map pb_full ps = map (append s) l.
Proof. intros P s l ps H F. induction F as [|f p l ps HP F IH]; auto. cbn [map]. f_equal; [apply H; auto; now left|]. apply IH. intros; apply H; auto. now right. Qed.
Lemma group_exact : forall (P : string -> passband -> Prop) s l ps, l <> [] -> NoDup (map (append s) l) -> (forall f p, In f l -> P f p -> built_band p /\ pb_full p = (s ++ f)%string) ->
  Forall2 P l ps -> exists g, pg_make ps None = Ok g /\ members g = ps.
Proof.
  intros P s l ps NE ND H F. apply make_none.
  - apply Forall_forall. intros p HP. destruct (Forall2_In_r _ _ _ _ _ _ F HP) as (f & HF & Q). now apply (H f p).
  - intros ->. inversion F. congruence.
  - rewrite (map_full P s l ps); auto. intros f p HF HP. now apply (H f p).
Qed.
Lemma six_nodup : NoDup (map (append "LSST_") six).
Proof. repeat constructor; cbn; intuition discriminate. Qed.
Lemma lsst_units_ok : forall parse base w dir k r, lsst_preset parse base w dir k = r -> (k_units k = None \/ k_units k = Some "nm") \/ r = (Err ValueError, w) /\ exists u, k_units k = Some u /\ u <> "nm".
Proof.
  intros parse base w dir k r H. unfold lsst_preset in H. destruct (k_units k) as [u|]; auto. destruct (String.eqb u "nm") eqn:E.
  - apply String.eqb_eq in E. subst u. auto.
  - right. split; auto. exists u. split; auto. now apply String.eqb_neq.
Qed.
Lemma lsst_load : forall parse base w dir k, k_units k = None \/ k_units k = Some "nm" -> lsst_preset parse base w dir k = load_all parse base w (map (lsst_params dir k) six).
Proof. intros parse base w dir k [H|H]; unfold lsst_preset; rewrite H; reflexivity. Qed.
Lemma load_all_files : forall parse base fs w ps w', load_all parse base w fs = (Ok ps, w') ->
  Forall2 (fun f p => exists w1 w2, from_file parse base w1 f = (Ok p, w2) /\ forall q c, w_file w2 q = Some c -> w_file w' q = Some c) fs ps.
Proof. intros parse base fs w ps w' H. apply load_all_Forall2 in H. destruct H as (F & _). eapply Forall2_impl'; [|exact F]. intros f p (w1 & w2 & A & _ & C). eauto. Qed.
Lemma lsst_list : forall parse base w dir k ps w', load_all parse base w (map (lsst_params dir k) six) = (Ok ps, w') -> Forall2 (lsst_band parse w' dir k) six ps.
Proof.
  intros parse base w dir k ps w' H. apply load_all_files in H. rewrite Forall2_map_l in H. eapply Forall2_mono; [|exact H]. cbv beta. intros f p HF (w1 & w2 & A & C).
  apply lsst_file in A; auto. destruct A as (c & rows & HC & R). exists c, rows. split; auto.
Qed.
(** What the group holds: the six bands in this order, each from its own file, with the wavelengths taken as nanometers. *)
Theorem C106_lsst : forall parse columns registry base w preset table_dir k g w', lower preset = "lsst" ->
  from_preset parse columns registry base w preset table_dir None k = (Ok g, w') ->
  (k_units k = None \/ k_units k = Some "nm") /\ Forall2 (lsst_band parse w' (data_dir base table_dir) k) six (members g).
Proof.
  intros parse columns registry base w preset table_dir k g w' HL H. unfold from_preset in H. cbv zeta in H. rewrite HL in H. cbn [String.eqb Ascii.eqb Bool.eqb] in H. fold (data_dir base table_dir) in H.
  destruct (lsst_units_ok parse base w (data_dir base table_dir) k _ eq_refl) as [HU|(E & _)]; [|rewrite E in H; discriminate]. split; auto. rewrite lsst_load in H by auto.
  destruct (load_all _ _ _ _) as [[ps|e] w1] eqn:EL; [|discriminate]. injection H as HG <-. apply lsst_list in EL.
  destruct (group_exact (lsst_band parse w1 (data_dir base table_dir) k) "LSST_" six ps) as (g' & G1 & G2); auto; [discriminate|apply six_nodup|intros; eapply lsst_full; eauto|].
  rewrite HG in G1. injection G1 as <-. now rewrite G2.
Qed.
(** With the six files in the cache, the group is made without any download. *)
Theorem C106_lsst_cached : forall parse columns registry base w preset table_dir k ps, lower preset = "lsst" ->
  k_units k = None \/ k_units k = Some "nm" -> k_force k <> Some true -> Forall2 (lsst_band parse w (data_dir base table_dir) k) six ps ->
  exists g, from_preset parse columns registry base w preset table_dir None k = (Ok g, w) /\ members g = ps.
Proof.
  intros parse columns registry base w preset table_dir k ps HL HU HK F.
  destruct (group_exact (lsst_band parse w (data_dir base table_dir) k) "LSST_" six ps) as (g' & G1 & G2); auto; [discriminate|apply six_nodup|intros; eapply lsst_full; eauto|].
  exists g'. split; auto. unfold from_preset. cbv zeta. rewrite HL. cbn [String.eqb Ascii.eqb Bool.eqb]. fold (data_dir base table_dir). rewrite lsst_load by auto.
  assert (KF : force_of k = false) by (unfold force_of; destruct (k_force k) as [[|]|]; congruence). assert (LA : load_all parse base w (map (lsst_params (data_dir base table_dir) k) six) = (Ok ps, w)).
  { clear G1 G2. assert (IN : forall f, In f six -> In f six) by auto. revert IN F. generalize six at 1 3 4. intros l IN F. induction F as [|f p l ps0 HP F IH]; auto. cbn [map load_all].
    rewrite (lsst_cached_file _ _ _ _ _ _ p) by (auto; apply IN; now left). rewrite IH by (intros; apply IN; now right). reflexivity. }
  rewrite LA. now rewrite G1.
Qed.
(** Any other unit is refused before anything is downloaded. *)
Theorem C106_lsst_units : forall parse columns registry base w preset table_dir filters k u, lower preset = "lsst" -> k_units k = Some u -> u <> "nm" ->
  from_preset parse columns registry base w preset table_dir filters k = (Err ValueError, w).
Proof.
  intros parse columns registry base w preset table_dir filters k u HL HU HN. unfold from_preset. cbv zeta. rewrite HL. cbn [String.eqb Ascii.eqb Bool.eqb]. unfold lsst_preset. rewrite HU.
  apply String.eqb_neq in HN. now rewrite HN.
Qed.

(** ** The Roman preset *)
Definition eight : list string := ["F062"; "F087"; "F106"; "F129"; "F146"; "F158"; "F184"; "F213"].
Definition roman_table (w : world) (dir : path) (columns : Z -> option (dict (list R))) (cols : dict (list R)) (waves : list R) : Prop :=
  exists c, w_file w (dir ++ ["Roman"; "roman_wfi_filters.ecsv"]) = Some c /\ columns c = Some cols /\ dget "Wave" cols = Some waves.
(** The column of the filter, over the wavelengths in microns. *)
Definition roman_member (k : kwargs) (cols : dict (list R)) (waves : list R) (f : string) (p : passband) : Prop :=
  exists vs, dget f cols = Some vs /\ pb_make (combine (map (fun x => x * 10000)%R waves) vs) "Roman" f (given (k_delta k) 5) (given (k_q k) (1 / 1000)) Angstrom = Ok p.
Lemma map_res_spec : forall X Y (h : X -> result Y) l ys, map_res h l = Ok ys <-> Forall2 (fun x y => h x = Ok y) l ys.
Proof.
  intros X Y h. induction l as [|x l IH]; intros ys; cbn [map_res].
  - split; [intros E; injection E as <-; constructor|intros F; now inversion F].
  - destruct (h x) as [y|e] eqn:E; cbn [bind].
    + destruct (map_res h l) as [ys'|e]; cbn [bind]; split; intros H.
      * injection H as <-. constructor; auto. now apply IH.
      * inversion H as [|? y0 ? ys0 HP HF]; subst. rewrite E in HP. injection HP as <-. apply IH in HF. now injection HF as <-.
      * discriminate.
      * inversion H as [|? y0 ? ys0 HP HF]; subst. apply IH in HF. discriminate.
    + split; [discriminate|]. intros F. inversion F as [|? y0 ? ys0 HP HF]; subst. congruence.
Qed.
Lemma eight_nodup : NoDup (map (append "Roman_") eight).
Proof. repeat constructor; cbn; intuition discriminate. Qed.
Lemma roman_full : forall k cols waves f p, roman_member k cols waves f p -> built_band p /\ pb_full p = ("Roman_" ++ f)%string.
Proof.
  intros k cols waves f p (vs & _ & HM). split; [eexists _, _, _, _, _, _; exact HM|].
  destruct (make_inv _ _ _ _ _ _ _ HM) as (t0 & _ & _ & _ & _ & A & B). unfold pb_full. now rewrite A, B.
Qed.
Lemma roman_band_spec : forall k waves cols f p, roman_band k waves cols f = Ok p <-> k_force k = None /\ (exists vs, dget f cols = Some vs /\
  pb_make (combine (map (fun x => x * 10000)%R waves) vs) "Roman" f (delta_of k) (q_of k) (match k_units k with Some u => units_of u | None => Angstrom end) = Ok p).
Proof.
  intros k waves cols f p. unfold roman_band. destruct (dget f cols) as [vs|]; [|split; [discriminate|intros (_ & vs & H & _); discriminate]].
  destruct (k_force k); [split; [discriminate|intros (H & _); discriminate]|]. split; [intros H; eauto|]. intros (_ & vs' & E & H). injection E as <-. exact H.
Qed.
Lemma roman_success : forall columns w dir k ps w', roman_preset columns w dir k = (Ok ps, w') ->
  k_units k = None /\ k_force k = None /\ download w (roman_file dir) (Some roman_url) false = (Ok true, w') /\
  exists cols waves, roman_table w' dir columns cols waves /\ Forall2 (roman_member k cols waves) eight ps.
Proof.
  intros columns w dir k ps w' H. unfold roman_preset in H. destruct (String.eqb (match k_units k with Some u => u | None => "micron" end) "micron") eqn:EU; [|discriminate]. cbn [negb] in H.
  destruct (download w (roman_file dir) (Some roman_url) (force_of k)) as [[[|]|] w1] eqn:ED; try discriminate. injection H as H <-. unfold roman_bands in H.
  destruct (w_file w1 (roman_file dir)) as [c|] eqn:EC; [|discriminate]. destruct (columns c) as [cols|] eqn:ECO; [|discriminate]. destruct (dget "Wave" cols) as [waves|] eqn:EW; [|discriminate].
  apply map_res_spec in H. change roman_filters with eight in H. inversion H as [|f0 p0 fs0 ps0 HP HF]; subst. assert (HP' := HP). apply roman_band_spec in HP'. destruct HP' as (KF & vs & _ & HM).
  assert (KU : k_units k = None).
  { destruct (k_units k) as [u|]; auto. apply String.eqb_eq in EU. subst u. cbn [units_of String.eqb Ascii.eqb Bool.eqb] in HM. unfold pb_make, validate in HM.
    destruct (existsb _ _); [discriminate|]. destruct (existsb _ _); discriminate. }
  split; auto. split; auto. split; [unfold force_of in ED; now rewrite KF in ED|]. exists cols, waves. split; [exists c; auto|].
  eapply Forall2_mono; [|exact H]. cbv beta. intros f p _ HB. apply roman_band_spec in HB. destruct HB as (_ & vs' & A & B). exists vs'. rewrite KU in B. split; auto.
Qed.
Theorem C106_roman : forall parse columns registry base w preset table_dir k g w', lower preset = "roman" ->
  from_preset parse columns registry base w preset table_dir None k = (Ok g, w') ->
  exists cols waves, roman_table w' (data_dir base table_dir) columns cols waves /\ Forall2 (roman_member k cols waves) eight (members g).
Proof.
  intros parse columns registry base w preset table_dir k g w' HL H. unfold from_preset in H. cbv zeta in H. rewrite HL in H. cbn [String.eqb Ascii.eqb Bool.eqb] in H. fold (data_dir base table_dir) in H.
  destruct (roman_preset _ _ _ _) as [[ps|e] w1] eqn:EL; [|discriminate]. injection H as HG <-. apply roman_success in EL. destruct EL as (_ & _ & _ & cols & waves & T & F). exists cols, waves. split; auto.
  destruct (group_exact (roman_member k cols waves) "Roman_" eight ps) as (g' & G1 & G2); auto; [discriminate|apply eight_nodup|intros; eapply roman_full; eauto|].
  rewrite HG in G1. injection G1 as <-. now rewrite G2.
Qed.
Theorem C106_roman_cached : forall parse columns registry base w preset table_dir k cols waves ps, lower preset = "roman" -> k_units k = None -> k_force k = None ->
  roman_table w (data_dir base table_dir) columns cols waves -> Forall2 (roman_member k cols waves) eight ps ->
  exists g, from_preset parse columns registry base w preset table_dir None k = (Ok g, w) /\ members g = ps.
Proof.
  intros parse columns registry base w preset table_dir k cols waves ps HL KU KF (c & HC & HCO & HW) F.
  destruct (group_exact (roman_member k cols waves) "Roman_" eight ps) as (g' & G1 & G2); auto; [discriminate|apply eight_nodup|intros; eapply roman_full; eauto|].
  exists g'. split; auto. unfold from_preset. cbv zeta. rewrite HL. cbn [String.eqb Ascii.eqb Bool.eqb]. fold (data_dir base table_dir). unfold roman_preset. rewrite KU. cbn [String.eqb Ascii.eqb Bool.eqb negb].
  unfold force_of. rewrite KF. rewrite C89_present by (eapply file_exists; exact HC). unfold roman_bands. unfold roman_file. rewrite HC, HCO, HW. change roman_filters with eight.
  replace (map_res (roman_band k waves cols) eight) with (@Ok (list passband) ps); [now rewrite G1|]. symmetry. apply map_res_spec. eapply Forall2_impl'; [|exact F]. cbv beta.
  intros f p (vs & A & B). apply roman_band_spec. split; auto. exists vs. split; auto. now rewrite KU.
Qed.
(** Refuted: the unit that the preset asks for cannot be given. *)
Theorem C106_roman_units_refuted : forall parse columns registry base w preset table_dir filters k u g w', lower preset = "roman" -> k_units k = Some u ->
  from_preset parse columns registry base w preset table_dir filters k <> (Ok g, w').
Proof.
  intros parse columns registry base w preset table_dir filters k u g w' HL HU H. unfold from_preset in H. cbv zeta in H. rewrite HL in H. cbn [String.eqb Ascii.eqb Bool.eqb] in H.
  destruct (roman_preset _ _ _ _) as [[ps|e] w1] eqn:EL; [|discriminate]. apply roman_success in EL. destruct EL as (KU & _). congruence.
Qed.
(** Refuted: nor can [force_download], with either value, although the loader looks for it. *)
Theorem C106_roman_force_refuted : forall parse columns registry base w preset table_dir filters k b g w', lower preset = "roman" -> k_force k = Some b ->
  from_preset parse columns registry base w preset table_dir filters k <> (Ok g, w').
Proof.
  intros parse columns registry base w preset table_dir filters k b g w' HL HU H. unfold from_preset in H. cbv zeta in H. rewrite HL in H. cbn [String.eqb Ascii.eqb Bool.eqb] in H.
  destruct (roman_preset _ _ _ _) as [[ps|e] w1] eqn:EL; [|discriminate]. apply roman_success in EL. destruct EL as (_ & KF & _). congruence.
Qed.

(** ** The ZTF preset *)
Definition ztf_member (registry : string -> option table) (f : string) (p : passband) : Prop :=
  exists t, registry ("ztf" ++ f)%string = Some t /\ pb_make t "ZTF" f (Some 5%R) None Angstrom = Ok p.
Lemma ztf_success : forall registry k ps, ztf_preset registry k = Ok ps <-> Forall2 (ztf_member registry) ["g"; "r"; "i"] ps.
Proof.
  intros registry k ps. unfold ztf_preset. rewrite map_res_spec. assert (X : forall f p, from_sncosmo registry "ZTF" f ("ztf" ++ f)%string k = Ok p <-> ztf_member registry f p).
  { intros f p. unfold from_sncosmo, ztf_member. destruct (registry ("ztf" ++ f)%string) as [t|]; split; intros H; try discriminate.
    - eauto.
    - destruct H as (t' & E & H). now injection E as <-.
    - destruct H as (t' & E & _). discriminate. }
  split; intros F; (eapply Forall2_impl'; [|exact F]); cbv beta; intros f p H; now apply X.
Qed.
Theorem C106_ztf : forall parse columns registry base w preset table_dir k g w', lower preset = "ztf" ->
  from_preset parse columns registry base w preset table_dir None k = (Ok g, w') <-> 
  w' = w /\ exists ps, Forall2 (ztf_member registry) ["g"; "r"; "i"] ps /\ pg_make ps None = Ok g /\ members g = ps.
Proof.
  intros parse columns registry base w preset table_dir k g w' HL. unfold from_preset. cbv zeta. rewrite HL. cbn [String.eqb Ascii.eqb Bool.eqb]. split.
  - destruct (ztf_preset registry k) as [ps|e] eqn:EZ; [|discriminate]. intros H. injection H as HG <-. apply ztf_success in EZ. split; auto. exists ps. split; auto. split; auto.
    destruct (group_exact (ztf_member registry) "ZTF_" ["g"; "r"; "i"] ps) as (g' & G1 & G2); auto; [discriminate|repeat constructor; cbn; intuition discriminate| |].
    + intros f p _ (t & _ & HM). split; [eexists _, _, _, _, _, _; exact HM|]. destruct (make_inv _ _ _ _ _ _ _ HM) as (t0 & _ & _ & _ & _ & A & B). unfold pb_full. now rewrite A, B.
    + rewrite HG in G1. injection G1 as <-. exact G2.
  - intros (-> & ps & F & HG & _). apply (ztf_success registry k) in F. rewrite F. now rewrite HG.
Qed.
(** Refuted: for this preset the keyword arguments (grid step, trimming, unit) have no effect. *)
Theorem C106_ztf_ignores_refuted : forall parse columns registry base w preset table_dir filters k k', lower preset = "ztf" ->
  from_preset parse columns registry base w preset table_dir filters k = from_preset parse columns registry base w preset table_dir filters k'.
Proof. intros parse columns registry base w preset table_dir filters k k' HL. unfold from_preset. cbv zeta. rewrite HL. reflexivity. Qed.

(** ** All presets *)
(** The name is not case sensitive; any other name is refused before anything is downloaded. *)
Theorem C106_preset_name : forall parse columns registry base w preset table_dir filters k,
  (forall preset', lower preset' = lower preset ->
     from_preset parse columns registry base w preset' table_dir filters k = from_preset parse columns registry base w preset table_dir filters k) /\
  (~ In (lower preset) ["lsst"; "ztf"; "roman"] -> from_preset parse columns registry base w preset table_dir filters k = (Err ValueError, w)).
Proof.
  intros parse columns registry base w preset table_dir filters k. split.
  - intros preset' E. unfold from_preset. now rewrite E.
  - intros N. unfold from_preset. cbv zeta. destruct (String.eqb (lower preset) "lsst") eqn:E1; [apply String.eqb_eq in E1; destruct N; rewrite E1; now left|].
    destruct (String.eqb (lower preset) "ztf") eqn:E2; [apply String.eqb_eq in E2; destruct N; rewrite E2; right; now left|].
    destruct (String.eqb (lower preset) "roman") eqn:E3; [apply String.eqb_eq in E3; destruct N; rewrite E3; right; right; now left|]. reflexivity.
Qed.
Definition preset_bands (parse : string -> Z -> content) (columns : Z -> option (dict (list R))) (registry : string -> option table)
    (base : path) (w : world) (preset : string) (table_dir : option path) (k : kwargs) : result (list passband) * world :=
  if String.eqb (lower preset) "lsst" then lsst_preset parse base w (data_dir base table_dir) k
  else if String.eqb (lower preset) "ztf" then (ztf_preset registry k, w)
  else if String.eqb (lower preset) "roman" then roman_preset columns w (data_dir base table_dir) k
  else (Err ValueError, w).
Lemma from_preset_bands : forall parse columns registry base w preset table_dir filters k,
  from_preset parse columns registry base w preset table_dir filters k =
  match preset_bands parse columns registry base w preset table_dir k with (Ok ps, w') => (pg_make ps filters, w') | (Err e, w') => (Err e, w') end.
Proof. reflexivity. Qed.
Lemma preset_built : forall parse columns registry base w preset table_dir k ps w', preset_bands parse columns registry base w preset table_dir k = (Ok ps, w') -> Forall built_band ps.
Proof.
  intros parse columns registry base w preset table_dir k ps w' H. unfold preset_bands in H. destruct (String.eqb (lower preset) "lsst").
  { destruct (lsst_units_ok parse base w (data_dir base table_dir) k _ eq_refl) as [HU|(E & _)]; [|rewrite E in H; discriminate]. rewrite lsst_load in H by auto. apply lsst_list in H.
    apply Forall_forall. intros p HP. destruct (Forall2_In_r _ _ _ _ _ _ H HP) as (f & _ & B). now apply lsst_full in B. }
  destruct (String.eqb (lower preset) "ztf").
  { injection H as H _. apply ztf_success in H. apply Forall_forall. intros p HP. destruct (Forall2_In_r _ _ _ _ _ _ H HP) as (f & _ & t & _ & HM). eexists _, _, _, _, _, _. exact HM. }
  destruct (String.eqb (lower preset) "roman"); [|discriminate]. apply roman_success in H. destruct H as (_ & _ & _ & cols & waves & _ & F).
  apply Forall_forall. intros p HP. destruct (Forall2_In_r _ _ _ _ _ _ F HP) as (f & _ & B). now apply roman_full in B.
Qed.
(** The [filters] argument only selects from the loaded bands (all of them are downloaded). *)
Theorem C106_preset_filters : forall parse columns registry base w preset table_dir fs k g w',
  from_preset parse columns registry base w preset table_dir (Some fs) k = (Ok g, w') ->
  exists g0, from_preset parse columns registry base w preset table_dir None k = (Ok g0, w') /\
  forall p, In p (members g) <-> In p (members g0) /\ (In (pb_full p) fs \/ In (pb_filter p) fs).
Proof.
  intros parse columns registry base w preset table_dir fs k g w' H. rewrite from_preset_bands in H. rewrite from_preset_bands. destruct (preset_bands _ _ _ _ _ _ _ _) as [[ps|e] w1] eqn:E; [|discriminate].
  injection H as HG <-. apply preset_built in E. destruct (pg_make ps None) as [g0|e] eqn:G0.
  - exists g0. split; auto. intros p. destruct (C32_filters_keep _ _ _ p E HG) as (g1 & G1 & X). rewrite G0 in G1. injection G1 as <-. exact X.
  - exfalso. unfold pg_make in G0. destruct ps as [|p0 ps0] eqn:EP; [discriminate|]. rewrite <- EP in *. destruct (update_ok (collect ps)) as (g1 & X); [|congruence].
    apply collect_from_Forall; auto. eapply Forall_impl; [|exact E]. apply built_good.
Qed.
(** After a success everything is in the cache: the same call (without [force_download]) needs no connection and gives the same group. *)
Theorem C106_preset_again : forall parse columns registry base w preset table_dir filters k g w' remote,
  from_preset parse columns registry base w preset table_dir filters k = (Ok g, w') ->
  from_preset parse columns registry base (network remote w') preset table_dir filters (mkKw (k_units k) (k_delta k) (k_q k) None) = (Ok g, network remote w').
Proof.
  intros parse columns registry base w preset table_dir filters k g w' remote H. rewrite from_preset_bands in *. destruct (preset_bands _ _ _ _ _ _ _ _) as [[ps|e] w1] eqn:E; [|discriminate].
  injection H as HG <-. set (k' := mkKw (k_units k) (k_delta k) (k_q k) None). replace (preset_bands parse columns registry base (network remote w1) preset table_dir k') with (@Ok (list passband) ps, network remote w1); [now rewrite HG|].
  symmetry. unfold preset_bands in *. destruct (String.eqb (lower preset) "lsst").
  { destruct (lsst_units_ok parse base w (data_dir base table_dir) k _ eq_refl) as [HU|(X & _)]; [|rewrite X in E; discriminate]. rewrite lsst_load in E by auto. rewrite lsst_load by auto.
    replace (map (lsst_params (data_dir base table_dir) k') six) with (map (with_force false) (map (lsst_params (data_dir base table_dir) k) six)); [|rewrite map_map; reflexivity].
    eapply load_all_again; [exact E|]. auto. }
  destruct (String.eqb (lower preset) "ztf"); [injection E as E <-; f_equal; exact E|].
  destruct (String.eqb (lower preset) "roman"); [|discriminate]. apply roman_success in E. destruct E as (KU & KF & _ & cols & waves & (c & HC & HCO & HW) & F).
  unfold roman_preset. change (k_units k') with (k_units k). rewrite KU. cbn [String.eqb Ascii.eqb Bool.eqb negb]. change (force_of k') with false.
  rewrite C89_present by (eapply file_exists; exact HC). f_equal. unfold roman_bands, roman_file. cbn [w_file network]. rewrite HC, HCO, HW. change roman_filters with eight. apply map_res_spec. eapply Forall2_impl'; [|exact F].
  cbv beta. intros f p (vs & A & B). apply roman_band_spec. split; auto. exists vs. split; auto. change (k_units k') with (k_units k). now rewrite KU.
Qed.

(** ** The SVO service *)
Fixpoint lacks (c : ascii) (s : string) : Prop := match s with EmptyString => True | String d s' => d <> c /\ lacks c s' end.
Lemma split_lacks : forall c s, lacks c s -> split_on c s = [s].
Proof.
  induction s as [|d s IH]; intros H; auto. destruct H as [H1 H2]. cbn [split_on]. destruct (Ascii.eqb d c) eqn:E; [apply Ascii.eqb_eq in E; congruence|]. now rewrite IH.
Qed.
Lemma split_one : forall c a b, lacks c a -> split_on c (a ++ String c b)%string = a :: split_on c b.
Proof.
  induction a as [|d a IH]; intros b H; cbn [append split_on].
  - now rewrite Ascii.eqb_refl.
  - destruct H as [H1 H2]. destruct (Ascii.eqb d c) eqn:E; [apply Ascii.eqb_eq in E; congruence|]. now rewrite IH.
Qed.
Lemma split_inv : forall c s x l, split_on c s = x :: l -> lacks c x /\ match l with [] => s = x | _ => exists s', s = (x ++ String c s')%string /\ split_on c s' = l end.
Proof.
  induction s as [|d s IH]; intros x l H; cbn [split_on] in H.
  - injection H as <- <-. cbn. auto.
  - destruct (Ascii.eqb d c) eqn:E.
    + apply Ascii.eqb_eq in E. subst d. injection H as <- <-. split; [exact I|]. destruct (split_on c s) eqn:ES; [|exists s; auto]. exfalso. clear - ES. destruct s as [|d s]; cbn in ES; [discriminate|].
      destruct (Ascii.eqb d c); [discriminate|]. destruct (split_on c s); discriminate.
    + destruct (split_on c s) as [|w ws] eqn:ES.
      * exfalso. clear - ES. destruct s as [|d' s]; cbn in ES; [discriminate|]. destruct (Ascii.eqb d' c); [discriminate|]. destruct (split_on c s); discriminate.
      * injection H as <- <-. destruct (IH w ws eq_refl) as (A & B). apply Ascii.eqb_neq in E. split; [cbn; auto|]. destruct ws as [|w2 ws]; [now subst|]. destruct B as (s' & -> & B). exists s'. auto.
Qed.
(** The file <dir>/<survey>/<filter>.xml is a VOTable, and [p] the passband it makes. *)
Definition svo_band (parse : string -> Z -> content) (w : world) (dir : path) (delta q : option R) (name : string) (p : passband) : Prop :=
  exists survey flt c raw u, name = (survey ++ "." ++ flt)%string /\ lacks "." survey /\ lacks "." flt /\
    w_file w (dir ++ List.filter nonempty (split_on "/" survey) ++ [(flt ++ ".xml")%string]) = Some c /\
    holds parse (flt ++ ".xml") c Angstrom raw u /\ pb_make raw survey flt delta q u = Ok p.
Lemma svo_path_name : forall (a b : path) n, file_name (a ++ b ++ [n]) = n.
Proof. intros a b n. unfold file_name. rewrite app_assoc. apply last_last. Qed.
Lemma svo_success : forall parse base w name delta q table_dir force p w', from_svo parse base w name delta q table_dir force Angstrom = (Ok p, w') ->
  svo_band parse w' (data_dir base table_dir) delta q name p /\ exists survey flt, split_on "." name = [survey; flt] /\
    from_file parse base w (svo_params base name survey flt delta q table_dir force Angstrom) = (Ok p, w').
Proof.
  intros parse base w name delta q table_dir force p w' H. unfold from_svo in H. destruct (split_on "." name) as [|survey [|flt [|? ?]]] eqn:ES; try discriminate. split; [|eauto].
  apply split_inv in ES. destruct ES as (L1 & s' & EN & ES). apply split_inv in ES. destruct ES as (L2 & ->). apply from_file_spec in H. destruct H as (_ & c & raw & u & HC & HH & HM).
  unfold svo_params in *. cbn [table_path f_path f_units f_survey f_filter f_delta f_q] in *. fold (data_dir base table_dir) in *. rewrite svo_path_name in HH. exists survey, flt, c, raw, u. auto 10.
Qed.
Theorem C106_svo : forall parse base w name delta q table_dir force p w', from_svo parse base w name delta q table_dir force Angstrom = (Ok p, w') ->
  svo_band parse w' (data_dir base table_dir) delta q name p.
Proof. intros. eapply svo_success; eauto. Qed.
(** A name must have exactly one dot; otherwise nothing happens. *)
Theorem C106_svo_name : forall parse base w name delta q table_dir force u,
  (forall survey flt, name = (survey ++ "." ++ flt)%string -> lacks "." survey -> lacks "." flt -> False) ->
  from_svo parse base w name delta q table_dir force u = (Err ValueError, w).
Proof.
  intros parse base w name delta q table_dir force u H. unfold from_svo. destruct (split_on "." name) as [|survey [|flt [|? ?]]] eqn:ES; auto. exfalso.
  apply split_inv in ES. destruct ES as (L1 & s' & EN & ES). apply split_inv in ES. destruct ES as (L2 & ->). exact (H survey flt EN L1 L2).
Qed.
Lemma svo_keeps : forall parse base w name delta q table_dir force r w' x c, from_svo parse base w name delta q table_dir force Angstrom = (r, w') -> w_file w x = Some c -> w_file w' x = Some c.
Proof.
  intros parse base w name delta q table_dir force r w' x c H HX. unfold from_svo in H. destruct (split_on "." name) as [|survey [|flt [|? ?]]]; try (injection H as <- <-; exact HX).
  eapply from_file_keeps; eauto.
Qed.
Lemma svo_all_spec : forall parse base names w delta q table_dir force ps w', svo_all parse base w names delta q table_dir force = (Ok ps, w') ->
  Forall2 (svo_band parse w' (data_dir base table_dir) delta q) names ps /\ (forall x c, w_file w x = Some c -> w_file w' x = Some c) /\
  forall w2, (forall x c, w_file w' x = Some c -> w_file w2 x = Some c) -> svo_all parse base w2 names delta q table_dir false = (Ok ps, w2).
Proof.
  intros parse base. induction names as [|n names IH]; intros w delta q table_dir force ps w' H; cbn [svo_all] in H.
  - injection H as <- <-. split; [constructor|]. split; auto.
  - destruct (from_svo parse base w n delta q table_dir force Angstrom) as [[p|e] w1] eqn:E1; [|discriminate].
    destruct (svo_all parse base w1 names delta q table_dir force) as [[ps1|e] w3] eqn:E2; [|discriminate]. injection H as <- <-. destruct (IH _ _ _ _ _ _ _ E2) as (F & K & A).
    destruct (svo_success _ _ _ _ _ _ _ _ _ _ E1) as (B & survey & flt & ES & EF). split; [|split].
    + constructor; auto. destruct B as (s1 & f1 & c & raw & u & X1 & X2 & X3 & X4 & X5). exists s1, f1, c, raw, u. auto 10.
    + intros x c HX. apply K. eapply svo_keeps; eauto.
    + intros w2 HW. cbn [svo_all]. replace (from_svo parse base w2 n delta q table_dir false Angstrom) with (@Ok passband p, w2); [now rewrite (A w2 HW)|]. symmetry. unfold from_svo. rewrite ES.
      change (svo_params base n survey flt delta q table_dir false Angstrom) with (with_force false (svo_params base n survey flt delta q table_dir force Angstrom)). eapply from_file_again; [exact EF|]. auto.
Qed.
(** The group: the passbands of the names (of two with the same full name, the last), and afterwards no connection is needed. *)
Theorem C106_svo_group : forall parse base w names delta q table_dir force g w', group_from_svo parse base w names delta q table_dir force = (Ok g, w') ->
  (exists ps, Forall2 (svo_band parse w' (data_dir base table_dir) delta q) names ps /\
     forall p, In p (members g) <-> exists a b, ps = a ++ p :: b /\ forall p', In p' b -> pb_full p' <> pb_full p) /\
  forall remote, group_from_svo parse base (network remote w') names delta q table_dir false = (Ok g, network remote w').
Proof.
  intros parse base w names delta q table_dir force g w' H. unfold group_from_svo in H. destruct (svo_all _ _ _ _ _ _ _ _) as [[ps|e] w1] eqn:E; [|discriminate]. injection H as HG <-.
  destruct (svo_all_spec _ _ _ _ _ _ _ _ _ _ E) as (F & _ & A). split.
  - exists ps. split; auto. intros p. rewrite (members_none _ _ HG). apply collect_In.
  - intros remote. unfold group_from_svo. rewrite A by auto. now rewrite HG.
Qed.

(** ** A concrete case *)
(** Two text files and a VOTable in /data/S, and the six LSST files. *)
Definition c106_parse (sfx : string) (c : Z) : content :=
  if Z.eqb c 1 then Text [[100; 1]; [200; 1]]%R else if Z.eqb c 2 then Vo (mkVO ["Wavelength"; "T"] (Some "nm") [(10, 1); (20, 1)]%R)
  else if Z.eqb c 3 then Text [[100; 1]; [100; 1]]%R else Unreadable.
Definition c106_files (p : path) : option Z :=
  if path_eqb p ["data"; "S"; "g.dat"] then Some 1%Z else if path_eqb p ["data"; "S"; "r.xml"] then Some 2%Z else if path_eqb p ["data"; "S"; "bad.dat"] then Some 3%Z else None.
Definition c106_world : world := mkW c106_files (fun p => path_eqb p ["data"; "S"]) (fun _ => Some 1%Z) ["home"] ["cache"].
Lemma two_rows_made : forall s f x1 x2 u, (0 < x1 < x2)%R -> u <> BadUnits -> exists p, pb_make [(x1, 1); (x2, 1)]%R s f None None u = Ok p.
Proof.
  intros s f x1 x2 u H HU. destruct u; [|now destruct (two_rows_ok s f x1 x2 H) as (p & E & _); exists p|congruence].
  destruct (two_rows_ok s f (x1 * 10) (x2 * 10)) as (p & E & _); [lra|]. exists p. unfold two_rows, pb_make in E. unfold pb_make.
  replace (validate [(x1, 1%R); (x2, 1%R)] Nm) with (validate [((x1 * 10)%R, 1%R); ((x2 * 10)%R, 1%R)] Angstrom); [exact E|]. unfold validate.
  destruct (increasing_diffs (xs [(x1, 1%R); (x2, 1%R)])) as [-> ->]; [cbn; lra|]. destruct (increasing_diffs (xs [((x1 * 10)%R, 1%R); ((x2 * 10)%R, 1%R)])) as [-> ->]; [cbn; lra|]. reflexivity.
Qed.
(** A directory of a text file in Angstroms and a VOTable in nanometers, and one with a bad file that was not asked for. *)
Example C106_applies :
  (exists g pg pr, from_dir c106_parse ["base"] c106_world (fun _ => ["g.dat"; "r.xml"; "bad.dat"]) (Abs ["data"; "S"]) (Some ["g"; "r"]) None None Angstrom = (Ok g, c106_world) /\
     In pg (members g) /\ In pr (members g) /\ pb_full pg = "S_g" /\ pb_full pr = "S_r" /\ pb_waves pg = [100; 200]%R /\ pb_waves pr = [100; 200]%R) /\
  from_dir c106_parse ["base"] c106_world (fun _ => ["g.dat"; "r.xml"; "bad.dat"]) (Abs ["data"; "S"]) None None None Angstrom = (Err TypeError, c106_world) /\
  (exists g w', from_preset c106_parse (fun _ => None) (fun _ => None) ["base"] c106_world "LSST" None None (mkKw None (Some None) (Some None) None) = (Ok g, w') /\ map pb_full (members g) =
     ["LSST_u"; "LSST_g"; "LSST_r"; "LSST_i"; "LSST_z"; "LSST_y"] /\ Forall (fun p => pb_loaded p = [(1000, 1); (2000, 1)]%R) (members g)).
Proof.
  destruct (two_rows_made "S" "g" 100 200 Angstrom) as (pg & Hg); [lra|discriminate|]. destruct (two_rows_made "S" "r" 10 20 Nm) as (pr & Hr); [lra|discriminate|].
  assert (Bg : dir_band c106_parse c106_world ["data"; "S"] None None Angstrom "g.dat" pg).
  { exists 1%Z, [(100, 1); (200, 1)]%R, Angstrom. split; [reflexivity|]. split; [|exact Hg]. apply (holds_text c106_parse "g.dat" 1 Angstrom [[100; 1]; [200; 1]]%R); [cbn; tauto|reflexivity|cbn; lia|repeat constructor]. }
  assert (Br : dir_band c106_parse c106_world ["data"; "S"] None None Angstrom "r.xml" pr).
  { exists 2%Z, [(10, 1); (20, 1)]%R, Nm. split; [reflexivity|]. split; [|exact Hr]. apply (holds_votable c106_parse "r.xml" 2 Angstrom "Wavelength" "T" "nm"); [cbn; tauto|reflexivity|reflexivity|left; cbn; tauto]. }
  split; [|split].
  - destruct (C106_from_dir_loads c106_parse ["base"] c106_world (fun _ => ["g.dat"; "r.xml"; "bad.dat"]) ["data"; "S"] (Some ["g"; "r"]) None None Angstrom) as (g & HG).
    + reflexivity.
    + exists "g.dat". split; [now left|]. split; [discriminate|now left].
    + intros name [<-|[<-|[<-|[]]]] [_ HW]; [exists pg; exact Bg|exists pr; exact Br|]. destruct HW as [H|[H|[]]]; discriminate.
    + intros fs E. injection E as <-. split.
      * intros x [<-|[<-|[]]]; [exists "g.dat"|exists "r.xml"]; (split; [cbn; tauto|split; [discriminate|reflexivity]]).
      * intros x [<-|[<-|[]]] [H|[H|[]]]; discriminate.
    + exists g, pg, pr. split; [exact HG|]. destruct (C106_from_dir _ _ _ _ _ _ _ _ _ _ _ HG) as (_ & _ & _ & M). split; [|split].
      * apply M. exists [], "g.dat", ["r.xml"; "bad.dat"]. split; auto. split; [split; [discriminate|now left]|]. split; auto. intros n [<-|[<-|[]]] _; discriminate.
      * apply M. exists ["g.dat"], "r.xml", ["bad.dat"]. split; auto. split; [split; [discriminate|right; now left]|]. split; auto. intros n [<-|[]] _; discriminate.
      * destruct (dir_band_names _ _ _ _ _ _ _ _ Bg) as (_ & A1 & A2). destruct (dir_band_names _ _ _ _ _ _ _ _ Br) as (_ & A3 & A4). unfold pb_full. rewrite A1, A2, A3, A4.
        split; [reflexivity|]. split; [reflexivity|]. destruct (make_inv _ _ _ _ _ _ _ Hg) as (t1 & V1 & P1 & _ & _). destruct (make_inv _ _ _ _ _ _ _ Hr) as (t2 & V2 & P2 & _ & _).
        unfold pb_waves. destruct (process_inv _ _ _ _ P1) as (a1 & a2 & X1 & X2 & X3). destruct (process_inv _ _ _ _ P2) as (b1 & b2 & Y1 & Y2 & Y3).
        rewrite (normalize_xs _ _ X3), (normalize_xs _ _ Y3). cbn [trim_table interpolate_table] in *. injection X1 as <-. injection X2 as <-. injection Y1 as <-. injection Y2 as <-.
        unfold validate in V1, V2. destruct (increasing_diffs (xs [(100, 1); (200, 1)]%R)) as [U1 U2]; [cbn; lra|]. rewrite U1, U2 in V1. injection V1 as <-.
        destruct (increasing_diffs (xs [(10, 1); (20, 1)]%R)) as [U3 U4]; [cbn; lra|]. rewrite U3, U4 in V2. injection V2 as <-. cbn [xs map fst snd]. split; [reflexivity|]. f_equal; [lra|]. f_equal. lra.
  - rewrite from_dir_abs. change (negb (w_dir c106_world ["data"; "S"])) with false. cbv iota.
    change (dir_names c106_world ["data"; "S"] None ["g.dat"; "r.xml"; "bad.dat"]) with ["g.dat"; "r.xml"; "bad.dat"]. unfold group_load. cbn [map load_all].
    rewrite (proj2 (dir_from_file c106_parse ["base"] c106_world ["data"; "S"] None None Angstrom "g.dat" pg c106_world ltac:(discriminate)) (conj eq_refl Bg)).
    rewrite (proj2 (dir_from_file c106_parse ["base"] c106_world ["data"; "S"] None None Angstrom "r.xml" pr c106_world ltac:(discriminate)) (conj eq_refl Br)).
    rewrite (C106_duplicates_refuted c106_parse ["base"] c106_world (dir_params ["data"; "S"] None None Angstrom "bad.dat") 3 [(100, 1); (100, 1)]%R Angstrom 0 100%R); auto.
    + apply (holds_text c106_parse "bad.dat" 3 Angstrom [[100; 1]; [100; 1]]%R); [cbn; tauto|reflexivity|cbn; lia|repeat constructor].
    + discriminate.
    + intros j a b H1 H2. destruct j as [|[|j]]; cbn in *; try discriminate. injection H1 as <-. injection H2 as <-. lra. 
  - set (k := mkKw None (Some None) (Some None) None).
    assert (L : forall fs w, Forall (fun f => In f six) fs -> (forall f, exists_ w (["base"; "passbands"] ++ ["LSST"; (f ++ ".dat")%string]) = false \/ w_file w (["base"; "passbands"] ++ ["LSST"; (f ++ ".dat")%string]) = Some 1%Z) ->
      (forall u, w_remote w u = Some 1%Z) -> exists ps w', load_all c106_parse ["base"] w (map (lsst_params ["base"; "passbands"] k) fs) = (Ok ps, w')).
    { induction fs as [|f fs IH]; intros w HF HE HR; cbn [map load_all]; [eauto|]. inversion HF as [|? ? HF1 HF2]; subst.
      destruct (two_rows_made "LSST" f 100 200 Nm) as (p & Hp); [lra|discriminate|].
      assert (S1 : suffix (f ++ ".dat") = ".dat") by now apply lsst_suffix.
      assert (HH : holds c106_parse (file_name (["base"; "passbands"] ++ ["LSST"; (f ++ ".dat")%string])) 1 Nm [(100, 1); (200, 1)]%R Nm).
      { rewrite file_name_two. apply (holds_text c106_parse (f ++ ".dat") 1 Nm [[100; 1]; [200; 1]]%R); rewrite ?S1; [cbn; tauto|reflexivity|cbn; lia|repeat constructor]. }
      destruct (HE f) as [HM|HM].
      - destruct (C89_missing w (["base"; "passbands"] ++ ["LSST"; (f ++ ".dat")%string]) (lsst_url f) 1 HM) with (force := false) as (w1 & D & C & _ & O & _); [discriminate|apply HR|].
        replace (from_file c106_parse ["base"] w (lsst_params ["base"; "passbands"] k f)) with (@Ok passband p, w1).
        2: { symmetry. apply from_file_spec. split; [exact D|]. exists 1%Z, [(100, 1); (200, 1)]%R, Nm. split; [exact C|]. split; [exact HH|exact Hp]. }
        destruct (IH w1) as (ps & w2 & E2); auto.
        + intros f'. destruct (list_eq_dec string_dec (["base"; "passbands"] ++ ["LSST"; (f' ++ ".dat")%string]) (["base"; "passbands"] ++ ["LSST"; (f ++ ".dat")%string])) as [EQ|NQ]; [right; now rewrite EQ|].
          destruct (HE f') as [E|E]; [|right; rewrite O; auto]. left. clear - D O NQ E. unfold exists_ in *. rewrite O by auto. apply orb_false_iff in E. destruct E as [E1 E2]. rewrite E1. cbn [orb].
          unfold download in D. cbn [negb andb] in D. destruct (exists_ w (["base"; "passbands"] ++ ["LSST"; (f ++ ".dat")%string])) eqn:EX; [injection D as <-; exact E2|].
          change (lsst_url f) with (String "h" ("ttps://github.com/lsst/throughputs/blob/main/baseline/total_" ++ f ++ ".dat?raw=true")%string) in D. cbv iota in D. unfold download_steps in D. rewrite EX in D.
          destruct (w_remote w _); [|discriminate]. injection D as _ <-. unfold run, put, mkdirs. cbn [fold_left app w_dir] in *. rewrite E2. cbn [orb]. unfold is_prefix, path_eqb. destruct (list_eq_dec _ _ _) as [EQ|_]; [|reflexivity]. cbn in EQ. apply (f_equal (@List.length string)) in EQ. discriminate.
        + intros u. apply download_remote in D. rewrite D. apply HR.
        + rewrite E2. eauto.
      - rewrite (from_file_cached c106_parse ["base"] w (lsst_params ["base"; "passbands"] k f) 1 [(100, 1); (200, 1)]%R Nm p eq_refl HM HH Hp). destruct (IH w) as (ps & w2 & E2); auto. rewrite E2. eauto. }
    destruct (L six c106_world) as (ps & w' & E).
    + apply Forall_forall. auto.
    + intros f. left. unfold exists_, c106_world, c106_files. cbn [w_file w_dir app]. unfold path_eqb. repeat (destruct (list_eq_dec string_dec _ _) as [EQ|_]; [discriminate|]). reflexivity.
    + reflexivity.
    + assert (F := lsst_list _ _ _ _ _ _ _ E). destruct (group_exact (lsst_band c106_parse w' ["base"; "passbands"] k) "LSST_" six ps) as (g & G1 & G2); auto; [discriminate|apply six_nodup|intros; eapply lsst_full; eauto|].
      exists g, w'. split; [|split].
      * unfold from_preset. cbv zeta. change (lower "LSST") with "lsst". cbn [String.eqb Ascii.eqb Bool.eqb]. rewrite lsst_load by (left; reflexivity). change (["base"] ++ ["passbands"]) with ["base"; "passbands"]. fold k. rewrite E. now rewrite G1.
      * rewrite G2. apply (map_full (lsst_band c106_parse w' ["base"; "passbands"] k) "LSST_" six); auto. intros f p _ H. now apply lsst_full in H.
      * rewrite G2. apply Forall_forall. intros p HP. destruct (Forall2_In_r _ _ _ _ _ _ F HP) as (f & _ & c & rows & _ & HPc & _ & _ & HM). assert (R : rows = [[100; 1]; [200; 1]]%R \/ rows = [[100; 1]; [100; 1]]%R).
        { unfold c106_parse in HPc. destruct (Z.eqb c 1); [injection HPc as <-; auto|]. destruct (Z.eqb c 2); [discriminate|]. destruct (Z.eqb c 3); [injection HPc as <-; auto|discriminate]. }
        destruct R as [-> | ->].
        -- destruct (C106_units _ _ _ _ _ _ _ HM) as (_ & _ & ->). cbn [map nth fst snd]. f_equal; [f_equal; lra|]. f_equal. f_equal; lra.
        -- apply C65_accepted_tables_increase in HM. destruct HM as (HI & _). cbn in HI. lra.
Qed.
