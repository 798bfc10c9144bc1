(** Theorems C106: passbands from files, directories, presets and the SVO service. *)
From Coq Require Import Reals String Ascii List Bool Arith ZArith Lia Lra.
From Verif Require Import Base BaseFacts RealBase PassbandModel PassbandProofs PassbandProps PassbandGroupProps DownloadModel DownloadProps PassbandFileModel PassbandFileProofs.
Import ListNotations.
Open Scope string_scope.
Open Scope list_scope.
Open Scope nat_scope.

(** ** One file *)
(** A passband is made from a file exactly when the file is there after the download, holds a table (see [holds]: a text file with two or more
    rows of two columns, in the unit the caller gave; or a VOTable of two columns, in the unit the file names), and the constructor accepts the
    numbers of the file with that unit: so wavelengths are converted exactly once. *)
Theorem C106_from_file : forall parse base w f pb w', from_file parse base w f = (Ok pb, w') <->
  download w (table_path base f) (f_url f) (f_force f) = (Ok true, w') /\
  exists c raw u, w_file w' (table_path base f) = Some c /\ holds parse (file_name (table_path base f)) c (f_units f) raw u /\
    pb_make raw (f_survey f) (f_filter f) (f_delta f) (f_q f) u = Ok pb.
Proof. exact from_file_spec. Qed.
(** The wavelengths of that passband's table, in Angstroms. *)
Theorem C106_units : forall raw s f d q u pb, pb_make raw s f d q u = Ok pb ->
  pb_survey pb = s /\ pb_filter pb = f /\
  pb_loaded pb = map (fun r => ((match u with Nm => 10 | _ => 1 end) * fst r, snd r)%R) raw.
Proof.
  intros raw s f d q u pb H. destruct (make_inv _ _ _ _ _ _ _ H) as (t0 & V & _ & _ & EL & ES & EF). split; auto. split; auto. rewrite EL. unfold validate in V.
  destruct (existsb _ _); [discriminate|]. destruct (existsb _ _); [discriminate|]. destruct u; [| |discriminate]; injection V as <-.
  - apply map_ext. intros [a b]. cbn [fst snd]. f_equal. lra.
  - rewrite <- (map_id raw) at 1. apply map_ext. intros [a b]. cbn [fst snd]. f_equal. lra.
Qed.
(** A file in the cache: nothing is downloaded, and neither the network nor the URL matters. *)
Theorem C106_cached : forall parse base w f c, f_force f = false -> w_file w (table_path base f) = Some c ->
  snd (from_file parse base w f) = w /\
  forall url remote, from_file parse base (network remote w) (mkParams (f_survey f) (f_filter f) (f_delta f) (f_q f) (Some (table_path base f)) url (f_units f) false) =
    (fst (from_file parse base w f), network remote w).
Proof.
  intros parse base w f c HF HC. assert (X : from_file parse base w f = (bind (load_table parse w (table_path base f) (f_units f)) (fun t => pb_make t (f_survey f) (f_filter f) (f_delta f) (f_q f) Angstrom), w)).
  { unfold from_file. cbv zeta. rewrite HF, C89_present by (eapply file_exists; eauto). reflexivity. }
  rewrite X. split; [reflexivity|]. intros url remote. unfold from_file. cbn [table_path f_path f_url f_force f_units f_survey f_filter f_delta f_q]. cbv zeta.
  rewrite C89_present by (eapply file_exists; cbn [w_file network]; eauto). reflexivity.
Qed.
(** After a success, the file is in the cache: the same call works without a connection and gives the same passband. *)
Theorem C106_again : forall parse base w f pb w' remote, from_file parse base w f = (Ok pb, w') ->
  from_file parse base (network remote w') (with_force false f) = (Ok pb, network remote w').
Proof. intros parse base w f pb w' remote H. eapply from_file_again; [exact H|]. auto. Qed.
(** The unit given by the caller is not used for a VOTable. *)
Theorem C106_votable_unit : forall parse base w f u, In (suffix (file_name (table_path base f))) [".xml"; ".vot"; ".votable"] ->
  from_file parse base w (mkParams (f_survey f) (f_filter f) (f_delta f) (f_q f) (f_path f) (f_url f) u (f_force f)) = from_file parse base w f.
Proof.
  intros parse base w f u H. unfold from_file. cbv zeta. change (table_path base (mkParams (f_survey f) (f_filter f) (f_delta f) (f_q f) (f_path f) (f_url f) u (f_force f))) with (table_path base f).
  cbn [f_url f_force f_units f_survey f_filter f_delta f_q]. destruct (download _ _ _ _) as [[[|]|] w']; auto. f_equal. f_equal. unfold load_table. destruct (w_file w' _); auto.
  cbv zeta. apply smem_In in H. unfold vo_suffixes. now rewrite H.
Qed.
(** Other suffixes (the comparison is case sensitive) are refused, whatever is in the file. *)
Theorem C106_suffix : forall parse base w f pb w', from_file parse base w f = (Ok pb, w') ->
  In (suffix (file_name (table_path base f))) [".csv"; ".ecsv"; ".txt"; ".dat"; ".xml"; ".vot"; ".votable"].
Proof.
  intros parse base w f pb w' H. apply from_file_spec in H. destruct H as (_ & c & raw & u & _ & H & _).
  destruct H as [rows HS HP L F|a b un raw u HS HP HW HU]; cbn [In] in *; tauto.
Qed.
(** What is before the last dot is the filter's name, the rest (with the dot) decides how the file is read; a name without a dot, or with only
    a leading one, has no suffix. *)
Lemma rfind_none : forall s, (forall i, String.get i s <> Some "."%char) -> rfind_dot s = None.
Proof.
  induction s as [|c s IH]; intros H; auto. cbn [rfind_dot]. rewrite IH by (intros i; exact (H (S i))).
  destruct (Ascii.eqb_spec c "."); auto. exfalso. apply (H 0). cbn. congruence.
Qed.
Lemma rfind_app : forall s e, (forall i, String.get i e <> Some "."%char) -> rfind_dot (s ++ String "." e)%string = Some (String.length s).
Proof.
  induction s as [|c s IH]; intros e H; cbn [String.append rfind_dot String.length].
  - now rewrite rfind_none.
  - now rewrite (IH e H).
Qed.
Lemma substring_head : forall s e, String.substring 0 (String.length s) (s ++ e)%string = s.
Proof. induction s as [|c s IH]; intros e; cbn [String.length String.append String.substring]; [now destruct e|now rewrite IH]. Qed.
Lemma substring_whole : forall e, String.substring 0 (String.length e) e = e.
Proof. induction e as [|c e IH]; cbn [String.length String.substring]; congruence. Qed.
Lemma substring_tail : forall s e, String.substring (String.length s) (String.length e) (s ++ e)%string = e.
Proof. induction s as [|c s IH]; intros e; cbn [String.length String.append String.substring]; [apply substring_whole|apply IH]. Qed.
Theorem C106_file_names : forall s e, (forall i, String.get i e <> Some "."%char) ->
  (s <> ""%string -> e <> ""%string -> stem (s ++ String "." e)%string = s /\ suffix (s ++ String "." e)%string = String "." e) /\
  stem e = e /\ suffix e = ""%string /\ stem (String "." e) = String "." e /\ suffix (String "." e) = ""%string.
Proof.
  intros s e H. split.
  - intros HS HE. unfold stem, suffix. rewrite rfind_app by exact H. rewrite length_append. cbn [String.length].
    assert (L1 : 0 < String.length s) by (destruct s; [congruence|cbn; lia]). assert (L2 : 0 < String.length e) by (destruct e; [congruence|cbn; lia]).
    replace (0 <? String.length s) with true by (symmetry; apply Nat.ltb_lt; lia).
    replace (String.length s <? String.length s + S (String.length e) - 1) with true by (symmetry; apply Nat.ltb_lt; lia). cbn [andb]. split.
    + apply substring_head.
    + replace (String.length s + S (String.length e) - String.length s) with (String.length (String "." e)) by (cbn [String.length]; lia). apply substring_tail.
  - unfold stem, suffix. rewrite (rfind_none e H). repeat split; auto.
    + cbn [rfind_dot]. now rewrite (rfind_none e H).
    + cbn [rfind_dot]. now rewrite (rfind_none e H).
Qed.
(** Refuted: duplicate wavelengths are not averaged, as the code's comment and its warning promise; they raise a TypeError. *)
Theorem C106_duplicates_refuted : forall parse base w f c raw u i x, f_force f = false -> w_file w (table_path base f) = Some c ->
  holds parse (file_name (table_path base f)) c (f_units f) raw u -> u <> BadUnits ->
  (forall j a b, nth_error (xs raw) j = Some a -> nth_error (xs raw) (S j) = Some b -> (a <= b)%R) ->
  nth_error (xs raw) i = Some x -> nth_error (xs raw) (S i) = Some x ->
  from_file parse base w f = (Err TypeError, w).
Proof.
  intros parse base w f c raw u i x HF HC HH HU HS H1 H2.
  assert (ND : existsb (fun d => Rltb d 0) (diffs (xs raw)) = false /\ existsb (fun d => Reqb d 0) (diffs (xs raw)) = true).
  { revert HS i H1 H2. generalize (xs raw). intros l. induction l as [|a [|b l] IH]; intros HS i H1 H2.
    - destruct i; discriminate.
    - destruct i as [|[|i]]; discriminate.
    - change (diffs (a :: b :: l)) with ((b - a)%R :: diffs (b :: l)). cbn [existsb]. pose proof (HS 0 a b eq_refl eq_refl) as AB. split.
      + replace (Rltb (b - a) 0) with false by (symmetry; apply Rltb_false; lra). cbn [orb]. clear - HS. assert (HS' := fun j => HS (S j)). clear HS. cbn [nth_error] in HS'. revert b HS'. induction l as [|c l IH]; intros b HS; auto.
        change (diffs (b :: c :: l)) with ((c - b)%R :: diffs (c :: l)). cbn [existsb]. pose proof (HS 0 b c eq_refl eq_refl).
        replace (Rltb (c - b) 0) with false by (symmetry; apply Rltb_false; lra). cbn [orb]. apply IH. intros j. apply (HS (S j)).
      + destruct i as [|i].
        * cbn [nth_error] in *. injection H1 as ->. injection H2 as ->. replace (Reqb (x - x) 0) with true by (symmetry; apply Reqb_true; lra). reflexivity.
        * replace (existsb (fun d => Reqb d 0) (diffs (b :: l))) with true; [apply orb_true_r|]. symmetry. apply (IH (fun j => HS (S j)) i H1 H2). }
  destruct ND as [N1 N2].
  assert (NE : raw <> []) by (intros ->; destruct i; discriminate).
  assert (X : in_angstroms raw u = Err TypeError).
  { unfold in_angstroms. destruct raw as [|r0 raw]; [congruence|]. set (l := r0 :: raw) in *. clearbody l. destruct u; cbn [bind]; [rewrite diffs_scaled, !existsb_scaled by (apply ltb_scaled || apply eqb_scaled)| |congruence]; now rewrite N1, N2. }
  unfold from_file. cbv zeta. rewrite HF, C89_present by (eapply file_exists; eauto). f_equal. unfold load_table. rewrite HC. cbv zeta. destruct HH as [rows HSF HP L F|a b un raw u HSF HP HW HUN].
  - destruct (smem (suffix (file_name (table_path base f))) vo_suffixes) eqn:EV; [apply smem_In in EV; destruct (not_both _ HSF EV)|].
    replace (smem (suffix (file_name (table_path base f))) text_suffixes) with true by (symmetry; now apply smem_In). rewrite HP.
    replace (two_columns rows) with (@Ok table (map (fun r => (nth 0 r 0%R, nth 1 r 0%R)) rows)) by (symmetry; apply two_columns_spec; auto). cbn [bind]. now rewrite X.
  - replace (smem (suffix (file_name (table_path base f))) vo_suffixes) with true by (symmetry; now apply smem_In). rewrite HP. cbn [vo_fields vo_unit vo_rows]. rewrite HW. cbn [negb].
    destruct HUN as [[HUN ->]|[HUN ->]].
    + replace (smem (lower un) nm_names) with true by (symmetry; now apply smem_In). now rewrite X.
    + destruct (smem (lower un) nm_names) eqn:EN; [apply smem_In in EN; destruct (unit_names _ EN HUN)|].
      replace (smem (lower un) a_names) with true by (symmetry; now apply smem_In). now rewrite X.
Qed.
(** Refuted: a text file with a single row is not a table with two columns but an IndexError. *)
Theorem C106_one_row_refuted : forall parse base w f c r, f_force f = false -> w_file w (table_path base f) = Some c ->
  In (suffix (file_name (table_path base f))) [".csv"; ".ecsv"; ".txt"; ".dat"] -> parse (suffix (file_name (table_path base f))) c = Text [r] ->
  from_file parse base w f = (Err IndexError, w).
Proof.
  intros parse base w f c r HF HC HS HP. unfold from_file. cbv zeta. rewrite HF, C89_present by (eapply file_exists; eauto). f_equal. unfold load_table. rewrite HC. cbv zeta.
  destruct (smem (suffix (file_name (table_path base f))) vo_suffixes) eqn:EV; [apply smem_In in EV; destruct (not_both _ HS EV)|].
  replace (smem (suffix (file_name (table_path base f))) text_suffixes) with true by (symmetry; now apply smem_In). now rewrite HP.
Qed.

(** ** A directory *)
(** [name] is a file of the directory [d] that the caller wants. *)
Definition wants (w : world) (d : path) (filters : option (list string)) (name : string) : Prop :=
  w_file w (d ++ [name]) <> None /\ match filters with None => True | Some fs => In (stem name) fs end.
(** The passband that the file [name] of the directory holds. *)
Definition dir_band (parse : string -> Z -> content) (w : world) (d : path) (delta q : option R) (given : wunits) (name : string) (p : passband) : Prop :=
  exists c raw u, w_file w (d ++ [name]) = Some c /\ holds parse name c given raw u /\ pb_make raw (List.last d "") (stem name) delta q u = Ok p.
Lemma last_app : forall (d : path) name, List.last (d ++ [name]) "" = name.
Proof. intros d name. apply last_last. Qed.
Definition dir_params (d : path) (delta q : option R) (u : wunits) (name : string) : params :=
  mkParams (List.last d "") (stem name) delta q (Some (d ++ [name])) None u false.
Lemma dir_from_file : forall parse base w d delta q u name p w', w_file w (d ++ [name]) <> None ->
  from_file parse base w (dir_params d delta q u name) = (Ok p, w') <-> w' = w /\ dir_band parse w d delta q u name p.
Proof.
  intros parse base w d delta q u name p w' HN. rewrite from_file_spec. unfold dir_params, dir_band. cbn [table_path f_path f_url f_force f_units f_survey f_filter f_delta f_q].
  unfold file_name. rewrite last_app. rewrite C89_present by (destruct (w_file w (d ++ [name])) eqn:E; [eapply file_exists; eauto|congruence]). split.
  - intros (E & X). injection E as <-. auto.
  - intros (-> & X). auto.
Qed.
Definition dir_names (w : world) (d : path) (filters : option (list string)) (listing : list string) : list string :=
  filter (fun name => (is_file w (d ++ [name]) && match filters with None => true | Some fs => smem (stem name) fs end)%bool) listing.
Lemma dir_names_In : forall w d filters listing name, In name (dir_names w d filters listing) <-> In name listing /\ wants w d filters name.
Proof.
  intros w d filters listing name. unfold dir_names. rewrite filter_In, andb_true_iff. unfold wants, is_file. destruct (w_file w (d ++ [name])); destruct filters as [fs|]; rewrite ?smem_In;
    intuition (congruence || discriminate || auto).
Qed.
Lemma from_dir_abs : forall parse base w listing d filters delta q u, from_dir parse base w listing (Abs d) filters delta q u =
  if negb (w_dir w d) then (Err ValueError, w) else group_load parse base w (map (dir_params d delta q u) (dir_names w d filters (listing d))) filters.
Proof. reflexivity. Qed.
Lemma filter_split : forall A (f : A -> bool) l a x b, filter f l = a ++ x :: b -> exists a' b', l = a' ++ x :: b' /\ a = filter f a' /\ b = filter f b'.
Proof.
  induction l as [|y l IH]; intros a x b H; cbn [filter] in H; [destruct a; discriminate|]. destruct (f y) eqn:E.
  - destruct a as [|a0 a]; cbn [app] in H; injection H as -> H.
    + exists [], l. auto.
    + destruct (IH _ _ _ H) as (a' & b' & -> & -> & ->). exists (a0 :: a'), b'. cbn [app filter]. now rewrite E.
  - destruct (IH _ _ _ H) as (a' & b' & -> & -> & ->). exists (y :: a'), b'. cbn [app filter]. now rewrite E.
Qed.
Lemma Forall2_split_r : forall A B (P : A -> B -> Prop) l m a y b, Forall2 P l m -> m = a ++ y :: b -> exists a' x b', l = a' ++ x :: b' /\ P x y /\ Forall2 P b' b.
Proof.
  intros A B P l m a y b F. revert a. induction F as [|x0 y0 l m HP F IH]; intros a E; [destruct a; discriminate|]. destruct a as [|a0 a]; cbn [app] in E; injection E as -> E.
  - subst m. exists [], x0, l. auto.
  - destruct (IH a E) as (a' & x & b' & -> & HX & F'). exists (x0 :: a'), x, b'. auto.
Qed.
Lemma Forall2_split_l : forall A B (P : A -> B -> Prop) l m a x b, Forall2 P l m -> l = a ++ x :: b -> exists a' y b', m = a' ++ y :: b' /\ P x y /\ Forall2 P b b'.
Proof.
  intros A B P l m a x b F. revert a. induction F as [|x0 y0 l m HP F IH]; intros a E; [destruct a; discriminate|]. destruct a as [|a0 a]; cbn [app] in E; injection E as -> E.
  - subst l. exists [], y0, m. auto.
  - destruct (IH a E) as (a' & y & b' & -> & HX & F'). exists (y0 :: a'), y, b'. auto.
Qed.
Lemma Forall2_map_l : forall A B C (g : A -> B) (P : B -> C -> Prop) l m, Forall2 P (map g l) m <-> Forall2 (fun a c => P (g a) c) l m.
Proof.
  intros A B C g P l. induction l as [|x l IH]; intros m; cbn [map]; split; intros H; inversion H as [|? y ? m' HP HF]; subst; constructor; auto; apply IH; auto.
Qed.
Lemma dir_load : forall parse base w d delta q u filters listing r w', load_all parse base w (map (dir_params d delta q u) (dir_names w d filters listing)) = (r, w') ->
  w' = w /\ forall ps, r = Ok ps <-> Forall2 (dir_band parse w d delta q u) (dir_names w d filters listing) ps.
Proof.
  intros parse base w d delta q u filters listing r w' H. apply load_all_cached in H.
  - destruct H as [-> H]. split; auto. intros ps. rewrite H, Forall2_map_l. assert (HN : forall name, In name (dir_names w d filters listing) -> w_file w (d ++ [name]) <> None).
    { intros name HI. apply dir_names_In in HI. destruct HI as (_ & HW & _). exact HW. }
    clear H. revert ps. induction (dir_names w d filters listing) as [|n l IH]; intros ps; split; intros F; inversion F as [|? p ? ps' HP HF]; subst; constructor; auto.
    + apply dir_from_file in HP; [tauto|]. apply HN. now left.
    + apply IH; auto. intros; apply HN; now right.
    + apply dir_from_file; auto. apply HN. now left.
    + apply IH; auto. intros; apply HN; now right.
  - apply Forall_forall. intros f HI. apply in_map_iff in HI. destruct HI as (name & <- & HI). apply dir_names_In in HI. destruct HI as (_ & HW & _). split; auto.
Qed.
Lemma dir_band_names : forall parse w d delta q u name p, dir_band parse w d delta q u name p -> built_band p /\ pb_survey p = List.last d "" /\ pb_filter p = stem name.
Proof.
  intros parse w d delta q u name p (c & raw & u' & _ & _ & HM). split; [now exists raw, (List.last d ""), (stem name), delta, q, u'|].
  destruct (make_inv _ _ _ _ _ _ _ HM) as (t0 & _ & _ & _ & _ & A & B). auto.
Qed.
Lemma dir_full : forall parse w d delta q u n1 p1 n2 p2, dir_band parse w d delta q u n1 p1 -> dir_band parse w d delta q u n2 p2 -> pb_full p1 = pb_full p2 <-> stem n1 = stem n2.
Proof.
  intros parse w d delta q u n1 p1 n2 p2 H1 H2. destruct (dir_band_names _ _ _ _ _ _ _ _ H1) as (_ & A1 & B1). destruct (dir_band_names _ _ _ _ _ _ _ _ H2) as (_ & A2 & B2).
  unfold pb_full. rewrite A1, A2, B1, B2. split; [apply full_same|now intros ->].
Qed.
Lemma Forall2_In_l : forall A B (P : A -> B -> Prop) l m x, Forall2 P l m -> In x l -> exists y, In y m /\ P x y.
Proof. intros A B P l m x F. induction F as [|a b l m HP F IH]; intros []; [subst; exists b; split; auto; now left|]. destruct (IH H) as (y & HY & Q). exists y. split; auto. now right. Qed.
Lemma Forall2_In_r : forall A B (P : A -> B -> Prop) l m y, Forall2 P l m -> In y m -> exists x, In x l /\ P x y.
Proof. intros A B P l m y F. induction F as [|a b l m HP F IH]; intros []; [subst; exists a; split; auto; now left|]. destruct (IH H) as (x & HX & Q). exists x. split; auto. now right. Qed.
(** The members of a group loaded from a directory (an absolute path): the passbands of its wanted files, under the directory's name; when
    several files have the same stem, the last one in the listing.  Every wanted file must be a table; nothing is written or downloaded. *)
Theorem C106_from_dir : forall parse base w listing d filters delta q u g w', from_dir parse base w listing (Abs d) filters delta q u = (Ok g, w') ->
  w' = w /\ w_dir w d = true /\
  (forall name, In name (listing d) -> wants w d filters name -> exists p, dir_band parse w d delta q u name p) /\
  (forall p, In p (members g) <-> exists before name after, listing d = before ++ name :: after /\ wants w d filters name /\ dir_band parse w d delta q u name p /\
     forall name', In name' after -> wants w d filters name' -> stem name' <> stem name).
Proof.
  intros parse base w listing d filters delta q u g w' H. rewrite from_dir_abs in H. destruct (w_dir w d); [|discriminate]. cbn [negb] in H. unfold group_load in H.
  destruct (load_all parse base w (map (dir_params d delta q u) (dir_names w d filters (listing d)))) as [[ps|e] w1] eqn:EL; [|discriminate]. injection H as HG <-.
  destruct (dir_load _ _ _ _ _ _ _ _ _ _ _ EL) as (-> & S). pose proof (proj1 (S ps) eq_refl) as F. clear S EL. split; auto. split; auto. split.
  { intros name HI HW. destruct (Forall2_In_l _ _ _ _ _ name F) as (p & _ & HP); eauto. apply dir_names_In. auto. }
  assert (M : members g = map snd (collect ps)).
  { destruct filters as [fs|]; [|now apply members_none]. apply (members_some _ fs); auto. apply Forall_forall. intros p HP. destruct (Forall2_In_r _ _ _ _ _ _ F HP) as (name & HN & HB).
    apply dir_names_In in HN. destruct HN as (_ & _ & HW). destruct (dir_band_names _ _ _ _ _ _ _ _ HB) as (_ & _ & ->). exact HW. }
  intros p. rewrite M, collect_In. split.
  - intros (a & b & EP & N). destruct (Forall2_split_r _ _ _ _ _ _ _ _ F EP) as (a' & name & b' & EN & HB & FB). destruct (filter_split _ _ _ _ _ _ EN) as (a2 & b2 & E2 & _ & EB).
    exists a2, name, b2. split; auto. assert (HW : In name (dir_names w d filters (listing d))) by (rewrite EN; apply in_or_app; right; now left). apply dir_names_In in HW. split; [tauto|]. split; auto.
    intros name' HI' HW' ES. assert (IB : In name' b'). { rewrite EB. apply (dir_names_In w d filters b2). auto. }
    destruct (Forall2_In_l _ _ _ _ _ _ FB IB) as (p' & HP' & HB'). apply (N p' HP'). apply (dir_full _ _ _ _ _ _ _ _ _ _ HB' HB). exact ES.
  - intros (before & name & after & EL & HW & HB & N). assert (EN : dir_names w d filters (listing d) = dir_names w d filters before ++ name :: dir_names w d filters after).
    { rewrite EL. unfold dir_names at 1. rewrite filter_app. cbn [filter]. assert (X : In name (dir_names w d filters [name])) by (apply dir_names_In; split; [now left|auto]).
      unfold dir_names in X. cbn [filter] in X. destruct (is_file w (d ++ [name]) && _)%bool; [reflexivity|destruct X]. }
    destruct (Forall2_split_l _ _ _ _ _ _ _ _ F EN) as (a' & p' & b' & EP & HB' & FB). assert (PP : p' = p).
    { destruct HB as (c & raw & u1 & C1 & H1 & M1), HB' as (c' & raw' & u1' & C1' & H1' & M1'). rewrite C1 in C1'. injection C1' as <-. destruct (holds_fun _ _ _ _ _ _ _ _ H1 H1') as (-> & ->). congruence. }
    subst p'. exists a', b'. split; auto. intros q' HQ. destruct (Forall2_In_r _ _ _ _ _ _ FB HQ) as (name' & HN' & HBQ). apply dir_names_In in HN'. destruct HN' as (I' & W').
    intros E. apply (N name' I' W'). apply (dir_full _ _ _ _ _ _ _ _ _ _ HBQ HB'). exact E.
Qed.
(** When the loading succeeds. *)
Theorem C106_from_dir_loads : forall parse base w listing d filters delta q u, w_dir w d = true ->
  (exists name, In name (listing d) /\ wants w d filters name) ->
  (forall name, In name (listing d) -> wants w d filters name -> exists p, dir_band parse w d delta q u name p) ->
  (forall fs, filters = Some fs -> (forall x, In x fs -> exists name, In name (listing d) /\ w_file w (d ++ [name]) <> None /\ stem name = x) /\
                                   (forall x, In x fs -> ~ In (List.last d "" ++ "_" ++ x)%string fs)) ->
  exists g, from_dir parse base w listing (Abs d) filters delta q u = (Ok g, w).
Proof.
  intros parse base w listing d filters delta q u HD (n0 & HI0 & HW0) HB HFS. rewrite from_dir_abs, HD. cbn [negb]. unfold group_load.
  destruct (load_all parse base w (map (dir_params d delta q u) (dir_names w d filters (listing d)))) as [r w1] eqn:EL. destruct (dir_load _ _ _ _ _ _ _ _ _ _ _ EL) as (-> & S).
  assert (X : exists ps, Forall2 (dir_band parse w d delta q u) (dir_names w d filters (listing d)) ps).
  { assert (Y : forall name, In name (dir_names w d filters (listing d)) -> exists p, dir_band parse w d delta q u name p) by (intros name HI; apply dir_names_In in HI; apply HB; tauto).
    clear - Y. induction (dir_names w d filters (listing d)) as [|n l IH]; [exists []; constructor|]. destruct IH as (ps & F); [intros; apply Y; now right|].
    destruct (Y n (or_introl eq_refl)) as (p & HP). exists (p :: ps). now constructor. }
  destruct X as (ps & F). rewrite (proj2 (S ps) F). clear S EL r.
  assert (BB : Forall built_band ps). { apply Forall_forall. intros p HP. destruct (Forall2_In_r _ _ _ _ _ _ F HP) as (name & _ & B). now apply dir_band_names in B. }
  assert (NE : ps <> []). { intros ->. assert (I : In n0 (dir_names w d filters (listing d))) by (apply dir_names_In; auto). destruct (Forall2_In_l _ _ _ _ _ _ F I) as (p & [] & _). }
  assert (G : exists g, pg_make ps filters = Ok g).
  { destruct filters as [fs|].
    - apply make_some; auto. intros x HX. destruct (HFS fs eq_refl) as (A & B). destruct (A x HX) as (name & HI & HW & ES).
      assert (I : In name (dir_names w d (Some fs) (listing d))) by (apply dir_names_In; split; [auto|split; [auto|now rewrite ES]]).
      destruct (Forall2_In_l _ _ _ _ _ _ F I) as (p & HP & HBd). destruct (dir_band_names _ _ _ _ _ _ _ _ HBd) as (_ & E1 & E2).
      assert (C : exists p', dget (pb_full p) (collect ps) = Some p').
      { destruct (dget (pb_full p) (collect ps)) eqn:EG; eauto. exfalso. clear - HP EG. induction ps as [|y ps IH] using rev_ind; [destruct HP|]. rewrite collect_snoc, dget_dset in EG.
        destruct (String.eqb (pb_full p) (pb_full y)) eqn:EQ; [discriminate|]. apply in_app_or in HP. destruct HP as [HP|[->|[]]]; auto. apply String.eqb_neq in EQ. congruence. }
      destruct C as (p' & C). assert (C2 := C). apply collect_get in C. destruct C as (a & b & EP & EF & _). apply dget_In in C2. exists p'. split; [apply in_map_iff; exists (pb_full p, p'); auto|].
      assert (P' : In p' ps) by (rewrite EP; apply in_or_app; right; now left). destruct (Forall2_In_r _ _ _ _ _ _ F P') as (name' & _ & HB').
      assert (ST : stem name' = stem name) by (apply (dir_full _ _ _ _ _ _ _ _ _ _ HB' HBd); exact EF). destruct (dir_band_names _ _ _ _ _ _ _ _ HB') as (_ & _ & E3).
      right. split; [|congruence]. rewrite EF. unfold pb_full. rewrite E1, E2, ES. now apply B.
    - unfold pg_make. destruct ps as [|p0 ps0] eqn:EPS; [congruence|]. rewrite <- EPS in *. apply update_ok. apply collect_from_Forall; auto. eapply Forall_impl; [|exact BB]. apply built_good. }
  destruct G as (g & ->). eauto.
Qed.
(** A requested filter that is no file's stem makes the loading fail; so a full name ("LSST_u") is not understood here, although the
    constructor of the group takes it. *)
Theorem C106_dir_missing : forall parse base w listing d fs delta q u x g w', In x fs ->
  (forall name, In name (listing d) -> w_file w (d ++ [name]) <> None -> stem name <> x) ->
  from_dir parse base w listing (Abs d) (Some fs) delta q u <> (Ok g, w').
Proof.
  intros parse base w listing d fs delta q u x g w' HX HN H. rewrite from_dir_abs in H. destruct (w_dir w d); [|discriminate]. cbn [negb] in H. unfold group_load in H.
  destruct (load_all parse base w (map (dir_params d delta q u) (dir_names w d (Some fs) (listing d)))) as [[ps|e] w1] eqn:EL; [|discriminate]. injection H as HG _.
  destruct (dir_load _ _ _ _ _ _ _ _ _ _ _ EL) as (-> & S). pose proof (proj1 (S ps) eq_refl) as F. clear S EL.
  assert (NE : ps <> []) by (intros ->; discriminate).
  assert (BB : Forall built_band ps). { apply Forall_forall. intros p HP. destruct (Forall2_In_r _ _ _ _ _ _ F HP) as (name & _ & B). now apply dir_band_names in B. }
  pose proof (proj1 (make_some ps fs BB NE) (ex_intro _ g HG)) as Q.
  assert (IN : forall p, In p (map snd (collect ps)) -> exists name, In name (listing d) /\ wants w d (Some fs) name /\ pb_survey p = List.last d "" /\ pb_filter p = stem name).
  { intros p HP. apply collect_In in HP. destruct HP as (a & b & EP & _). assert (P' : In p ps) by (rewrite EP; apply in_or_app; right; now left).
    destruct (Forall2_In_r _ _ _ _ _ _ F P') as (name & HI & HB). apply dir_names_In in HI. destruct (dir_band_names _ _ _ _ _ _ _ _ HB) as (_ & A & B). exists name. tauto. }
  (* no listed full name belongs to a loaded file: its stem would have to be found too *)
  assert (D : forall n name, String.length (stem name) <= n -> In name (listing d) -> wants w d (Some fs) name -> In (List.last d "" ++ "_" ++ stem name)%string fs -> False).
  { induction n as [|n IH]; intros name HL HI [HW HF] HFull; destruct (Q _ HF) as (p & HP & [C|[C1 C2]]); destruct (IN p HP) as (name' & HI' & HW' & E1 & E2).
    - unfold pb_full in C. rewrite E1, E2 in C. apply (f_equal String.length) in C. rewrite !length_append in C. cbn [String.length] in C. lia.
    - apply C1. unfold pb_full. rewrite E1, C2. exact HFull.
    - unfold pb_full in C. rewrite E1, E2 in C. apply (IH name'); auto.
      + apply (f_equal String.length) in C. rewrite !length_append in C. cbn [String.length] in C. lia.
      + rewrite C. exact HF.
    - apply C1. unfold pb_full. rewrite E1, C2. exact HFull. }
  destruct (Q x HX) as (p & HP & [C|[C1 C2]]); destruct (IN p HP) as (name & HI & HW & E1 & E2).
  - apply (D _ name (le_n _) HI HW). unfold pb_full in C. rewrite E1, E2 in C. now rewrite C.
  - destruct HW as [HW _]. apply (HN name HI HW). congruence.
Qed.
(** Refuted: a relative directory.  Its name is prepended twice, so the files are looked for in [dir/dir], and nothing is loaded
    although the directory is full of good files. *)
Theorem C106_relative_refuted : forall parse base w listing p filters delta q u,
  (forall name, exists_ w (w_cwd w ++ p ++ p ++ [name]) = false) ->
  from_dir parse base w listing (Rel p) filters delta q u = (Err ValueError, w).
Proof.
  intros parse base w listing p filters delta q u H. unfold from_dir. destruct (w_dir w (at_cwd w (Rel p))); [|reflexivity]. cbn [negb]. unfold group_load.
  set (names := filter _ _). destruct names as [|name names]; [reflexivity|]. cbn [map load_all]. unfold from_file. cbv zeta. cbn [table_path f_path f_url f_force f_units].
  cbn [joined at_cwd]. destruct (C89_refused w (w_cwd w ++ p ++ p ++ [name]) false (H name)) as (-> & _). reflexivity.
Qed.
