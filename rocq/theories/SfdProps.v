(** Installing and loading the SFD dust map (C90). *)
From Coq Require Import String Ascii List Bool Arith ZArith Lia.
From Verif Require Import Base BaseFacts DownloadModel DownloadProps.
Import ListNotations.
Open Scope list_scope.
Open Scope nat_scope.

(** ** Vocabulary *)
Definition there (w : world) (d : path) : Prop := w_dir w d = true /\ exists_ w (d ++ [ngp]) = true /\ exists_ w (d ++ [sgp]) = true.
(** One of the two maps is missing. *)
Definition lacks (w : world) (d : path) : Prop := exists_ w (d ++ [ngp]) = false \/ exists_ w (d ++ [sgp]) = false.
Definition cached (w : world) : Prop := w_file w (archive w) = Some good.
Lemma there_spec : forall w d, data_files_exist w d = true <-> there w d.
Proof. intros. unfold data_files_exist, there. rewrite !andb_true_iff. tauto. Qed.
Lemma lacks_spec : forall w d, lacks w d -> data_files_exist w d = false.
Proof. intros w d [H | H]; unfold data_files_exist; rewrite H; now rewrite ?andb_false_r. Qed.

Lemma exists_mkdirs : forall w p q, exists_ (mkdirs p w) q = (exists_ w q || is_prefix q p)%bool.
Proof. intros. unfold exists_, mkdirs. cbn [w_file w_dir]. now rewrite orb_assoc. Qed.
Lemma exists_put : forall w p c q, exists_ (put p c w) q = (path_eqb q p || exists_ w q)%bool.
Proof. intros. unfold exists_, put. cbn [w_file w_dir]. now destruct (path_eqb q p). Qed.
Lemma cached_bool : forall w, match w_file w (archive w) with Some c => Z.eqb c good | None => false end = true <-> cached w.
Proof. intros w. unfold cached. destruct (w_file w (archive w)) as [c|]; [rewrite Z.eqb_eq|]; split; intros; try congruence; discriminate. Qed.
Lemma app_last_neq : forall (p q : path) a b, a <> b -> p ++ [a] <> q ++ [b].
Proof. intros p q a b H E. apply app_inj_tail in E. destruct E. contradiction. Qed.
Lemma ngp_sgp : ngp <> sgp. Proof. discriminate. Qed.
Lemma ngp_archive : ngp <> "master.tar.gz"%string. Proof. discriminate. Qed.
Lemma sgp_archive : sgp <> "master.tar.gz"%string. Proof. discriminate. Qed.

(** The steps only ever add; the archive is never overwritten by the files unpacked. *)
Lemma extraction_there : forall x w w0, there (run (extraction x w0) w) (x ++ [master]) /\ exists_ (run (extraction x w0) w) x = true.
Proof.
  intros x w w0. unfold there, run, extraction. cbn [fold_left].
  assert (D : forall p, is_prefix p (x ++ [master]) = true -> w_dir (put (x ++ [master; sgp]) 2 (put (x ++ [master; ngp]) 1 (mkdirs (x ++ [master]) w))) p = true).
  { intros p H. unfold put, mkdirs. cbn [w_dir]. rewrite H. apply orb_true_r. }
  split.
  - split; [apply D, prefix_self|]. rewrite !exists_put. replace ((x ++ [master]) ++ [ngp]) with (x ++ [master; ngp]) by now rewrite <- app_assoc.
    replace ((x ++ [master]) ++ [sgp]) with (x ++ [master; sgp]) by now rewrite <- app_assoc. rewrite !path_eqb_refl. split; [apply orb_true_iff; right|]; reflexivity.
  - unfold exists_. rewrite D by apply prefix_app. apply orb_true_r.
Qed.
Lemma extraction_file : forall x w0 w p f, f <> ngp -> f <> sgp -> w_file (run (extraction x w0) w) (p ++ [f]) = w_file w (p ++ [f]).
Proof.
  intros x w0 w p f H1 H2. unfold run, extraction. cbn [fold_left]. unfold put. cbn [w_file].
  replace (x ++ [master; sgp]) with ((x ++ [master]) ++ [sgp]) by now rewrite <- app_assoc.
  replace (x ++ [master; ngp]) with ((x ++ [master]) ++ [ngp]) by now rewrite <- app_assoc.
  rewrite (proj2 (path_eqb_false _ _) (app_last_neq _ _ _ _ H2)), (proj2 (path_eqb_false _ _) (app_last_neq _ _ _ _ H1)). reflexivity.
Qed.
Lemma run_app : forall a b w, run (a ++ b) w = run b (run a w).
Proof. intros. unfold run. apply fold_left_app. Qed.
Lemma cached_extraction : forall x w0 w1, cached w1 -> cached (run (extraction x w0) w1).
Proof.
  intros x w0 w1 H. unfold cached in *. assert (A : archive (run (extraction x w0) w1) = archive w1) by reflexivity. rewrite A. unfold archive in *.
  rewrite extraction_file by discriminate. exact H.
Qed.
Lemma cached_put : forall w w1, w_cache w1 = w_cache w -> cached (put (archive w) good w1).
Proof. intros w w1 H. unfold cached, put, archive. cbn [w_file w_cache]. rewrite H. now rewrite path_eqb_refl. Qed.
Lemma same_cache : forall l w, (forall s, In s l -> forall w, w_cache (s w) = w_cache w /\ w_cwd (s w) = w_cwd w /\ w_remote (s w) = w_remote w) ->
  w_cache (run l w) = w_cache w /\ w_cwd (run l w) = w_cwd w /\ w_remote (run l w) = w_remote w.
Proof.
  induction l as [|s l IH]; intros w H; [auto|]. unfold run in *. cbn [fold_left]. destruct (IH (s w)) as (A & B & C); [intros; apply H; now right|].
  destruct (H s (or_introl eq_refl) w) as (A' & B' & C'). rewrite A, B, C. auto.
Qed.
Lemma steps_neutral : forall w a s, In s (fst (sfd_steps w a)) -> forall w0, w_cache (s w0) = w_cache w0 /\ w_cwd (s w0) = w_cwd w0 /\ w_remote (s w0) = w_remote w0.
Proof.
  intros w a s H w0.
  assert (X : forall l, (l = [] \/ exists p, l = [mkdirs p]) -> In s l -> w_cache (s w0) = w_cache w0 /\ w_cwd (s w0) = w_cwd w0 /\ w_remote (s w0) = w_remote w0).
  { intros l [-> | [p ->]] I; [destruct I|]. destruct I as [<- | []]. now cbn. }
  assert (E : forall x w1, In s (extraction x w1) -> w_cache (s w0) = w_cache w0 /\ w_cwd (s w0) = w_cwd w0 /\ w_remote (s w0) = w_remote w0).
  { intros x w1 I. unfold extraction in I. destruct I as [<- | [<- | [<- | []]]]; now cbn. }
  assert (M : forall l, l = (if exists_ w (at_cwd w a) then [] else [mkdirs (at_cwd w a)]) -> l = [] \/ exists p, l = [mkdirs p]) by (intros l ->; destruct (exists_ w (at_cwd w a)); eauto).
  unfold sfd_steps in H. cbv zeta in H. destruct (match w_file w (archive w) with Some c => Z.eqb c good | None => false end).
  - cbn [fst] in H. apply in_app_iff in H. destruct H as [H|H]; [eapply X; [apply M; reflexivity|exact H]|].
    destruct (exists_ _ _) in H; [destruct H|]. now apply E in H.
  - destruct (w_remote w sfd_url) as [c|]; [destruct (Z.eqb c good)|]; cbn [fst] in H; try (eapply X; [apply M; reflexivity|exact H]).
    apply in_app_iff in H. destruct H as [H|H]; [eapply X; [apply M; reflexivity|exact H]|]. destruct H as [<- | [<- | H]]; [now cbn|now cbn|now apply E in H].
Qed.
Lemma neutral : forall k w a, let w' := run (firstn k (fst (sfd_steps w a))) w in w_cache w' = w_cache w /\ w_cwd w' = w_cwd w /\ w_remote w' = w_remote w.
Proof. intros k w a. apply same_cache. intros s H. apply (steps_neutral w a). rewrite <- (firstn_skipn k). apply in_or_app. now left. Qed.
Lemma firstn_whole : forall A (l : list A), firstn (length l) l = l. Proof. intros. apply firstn_all. Qed.

(** ** Success means the maps are there *)
Theorem C90_sound : forall w a p w', sfd_load w a = (Ok p, w') -> there w' p /\ (p = at_cwd w a /\ w' = w \/ p = at_cwd w a ++ [master]).
Proof.
  intros w a p w' H. unfold sfd_load in H. destruct (data_files_exist w (at_cwd w a)) eqn:E.
  - injection H as <- <-. apply there_spec in E. auto.
  - destruct (sfd_steps w a) as [l [e|]] eqn:S; [discriminate|]. cbv zeta in H. destruct (data_files_exist (run l w) (at_cwd w a ++ [master])) eqn:E2; [|discriminate].
    injection H as <- <-. apply there_spec in E2. auto.
Qed.
(** Maps in the directory itself are used, whatever the network and the cache; nothing is changed. *)
Theorem C90_present : forall w a, there w (at_cwd w a) -> sfd_load w a = (Ok (at_cwd w a), w).
Proof. intros w a H. unfold sfd_load. apply there_spec in H. now rewrite H. Qed.
(** The first installation, in a directory given by an absolute path. *)
Theorem C90_first : forall w d, lacks w d -> ~ cached w -> w_remote w sfd_url = Some good ->
  exists w', sfd_load w (Abs d) = (Ok (d ++ [master]), w') /\ cached w'.
Proof.
  intros w d HL HC HR. unfold sfd_load. cbn [at_cwd]. rewrite (lacks_spec _ _ HL).
  unfold sfd_steps. cbv zeta. cbn [at_cwd extract_dir].
  destruct (match w_file w (archive w) with Some c => Z.eqb c good | None => false end) eqn:C; [apply cached_bool in C; contradiction|]. rewrite HR. cbn [Z.eqb good].
  replace (Z.eqb good good) with true by reflexivity.
  set (mk := if exists_ w d then [] else [mkdirs d]).
  assert (R : forall w0, run (mk ++ mkdirs (w_cache w) :: put (archive w) good :: extraction d w) w0 = run (extraction d w) (put (archive w) good (mkdirs (w_cache w) (run mk w0)))).
  { intros w0. unfold run. rewrite fold_left_app. reflexivity. }
  rewrite R. eexists. split; [rewrite (proj2 (there_spec _ _) (proj1 (extraction_there d _ w))); reflexivity|].
  assert (K : w_cache (run mk w) = w_cache w) by (subst mk; destruct (exists_ w d); reflexivity).
  apply cached_extraction, cached_put. exact K.
Qed.

(** A load whose steps end well leaves the archive in the cache and both directories in place. *)
Lemma steps_done : forall w a l, sfd_steps w a = (l, None) -> cached (run l w) /\ exists_ (run l w) (at_cwd w a) = true /\ exists_ (run l w) (extract_dir w a) = true.
Proof.
  intros w a l H. unfold sfd_steps in H. cbv zeta in H. set (mk := if exists_ w (at_cwd w a) then [] else [mkdirs (at_cwd w a)]) in *.
  assert (K : w_cache (run mk w) = w_cache w) by (subst mk; destruct (exists_ w (at_cwd w a)); reflexivity).
  assert (F : w_file (run mk w) = w_file w) by (subst mk; destruct (exists_ w (at_cwd w a)); reflexivity).
  assert (D : exists_ (run mk w) (at_cwd w a) = true).
  { subst mk. destruct (exists_ w (at_cwd w a)) eqn:E; [exact E|]. unfold run. cbn [fold_left]. rewrite exists_mkdirs, prefix_self. apply orb_true_r. }
  assert (EX : forall x w0 w1 p, exists_ w1 p = true -> exists_ (run (extraction x w0) w1) p = true).
  { intros x w0 w1 p E. unfold run, extraction. cbn [fold_left]. rewrite !exists_put, exists_mkdirs, E. now rewrite ?orb_true_r. }
  destruct (match w_file w (archive w) with Some c => Z.eqb c good | None => false end) eqn:C.
  - apply cached_bool in C. injection H as <-. rewrite run_app.
    destruct (exists_ (run mk w) (extract_dir w a)) eqn:E.
    + change (run [] (run mk w)) with (run mk w). split; [|auto]. unfold cached, archive in *. now rewrite K, F.
    + split; [|split].
      * apply cached_extraction. unfold cached, archive in *. now rewrite K, F.
      * now apply EX.
      * apply extraction_there.
  - destruct (w_remote w sfd_url) as [c|]; [|discriminate]. destruct (Z.eqb c good); [|discriminate]. injection H as <-.
    rewrite run_app. change (run (mkdirs (w_cache w) :: put (archive w) good :: extraction (extract_dir w a) w) (run mk w)) with (run (extraction (extract_dir w a) w) (put (archive w) good (mkdirs (w_cache w) (run mk w)))).
    split; [|split].
    + apply cached_extraction, cached_put. exact K.
    + apply EX. rewrite exists_put, exists_mkdirs, D. now rewrite orb_true_r.
    + apply extraction_there.
Qed.
Lemma network_there : forall r w d, data_files_exist (network r w) d = data_files_exist w d. Proof. reflexivity. Qed.
(** Once loaded, the map loads again, also without a connection as long as pooch's cache is kept; nothing changes any more. *)
Theorem C90_again : forall w a p w' remote, sfd_load w a = (Ok p, w') ->
  exists p', sfd_load (network remote w') a = (Ok p', network remote w') /\ there w' p' /\ (lacks w' (at_cwd w' a) \/ p = at_cwd w a -> p' = p).
Proof.
  intros w a p w' remote H. pose proof H as H'. apply C90_sound in H'. destruct H' as [T P].
  unfold sfd_load in H. destruct (data_files_exist w (at_cwd w a)) eqn:E.
  - injection H as <- <-. exists (at_cwd w a). split; [|auto]. exact (C90_present (network remote w) a T).
  - destruct (sfd_steps w a) as [l [e|]] eqn:S; [discriminate|]. cbv zeta in H. destruct (data_files_exist (run l w) (at_cwd w a ++ [master])) eqn:E2; [|discriminate].
    injection H as <- <-. destruct (steps_done _ _ _ S) as (C & D & X).
    assert (N : w_cache (run l w) = w_cache w /\ w_cwd (run l w) = w_cwd w).
    { assert (NE := neutral (length l) w a). rewrite S in NE. cbn [fst] in NE. rewrite firstn_all in NE. cbv zeta in NE. tauto. }
    destruct N as [N1 N2]. assert (AC : at_cwd (network remote (run l w)) a = at_cwd w a) by (destruct a; cbn; congruence).
    assert (AX : extract_dir (network remote (run l w)) a = extract_dir w a) by (destruct a; cbn; congruence).
    unfold sfd_load. rewrite AC, network_there. destruct (data_files_exist (run l w) (at_cwd w a)) eqn:E3.
    + exists (at_cwd w a). apply there_spec in E3. split; auto. split; auto. intros [L|L]; auto. exfalso. apply lacks_spec in L. replace (at_cwd (run l w) a) with (at_cwd w a) in L by (destruct a; cbn; congruence).
      apply there_spec in E3. congruence.
    + exists (at_cwd w a ++ [master]). split; [|auto]. unfold sfd_steps. cbv zeta. rewrite AC, AX.
      change (archive (network remote (run l w))) with (archive (run l w)). change (w_file (network remote (run l w))) with (w_file (run l w)). rewrite (proj2 (cached_bool _) C).
      change (exists_ (network remote (run l w)) (at_cwd w a)) with (exists_ (run l w) (at_cwd w a)). rewrite D. cbn [run fold_left app].
      change (exists_ (network remote (run l w)) (extract_dir w a)) with (exists_ (run l w) (extract_dir w a)). rewrite X. cbn [run fold_left app].
      rewrite network_there, E2. reflexivity.
Qed.
(** ** Where it goes wrong *)
Definition forget (w : world) : world := mkW (fun q => if path_eqb q (archive w) then None else w_file w q) (w_dir w) (fun _ => None) (w_cwd w) (w_cache w).
(** After an installation, with pooch's cache cleared and no connection, loading fails although the maps are on the disk where the
    first load put them. *)
Theorem C90_offline_refuted : forall w d w', sfd_load w (Abs d) = (Ok (d ++ [master]), w') -> lacks w' d ->
  there (forget w') (d ++ [master]) /\ fst (sfd_load (forget w') (Abs d)) = Err RuntimeError.
Proof.
  intros w d w' H L. apply C90_sound in H. destruct H as [(T1 & T2 & T3) _].
  assert (EF : forall p f, f = ngp \/ f = sgp -> exists_ (forget w') (p ++ [f]) = exists_ w' (p ++ [f])).
  { intros p f Hf. unfold exists_, forget. cbn [w_file w_dir]. unfold archive. rewrite (proj2 (path_eqb_false _ _)); auto. apply app_last_neq. destruct Hf as [-> | ->]; discriminate. }
  split.
  - split; [exact T1|]. rewrite !EF by auto. auto.
  - assert (L' : lacks (forget w') d) by (destruct L as [L|L]; [left|right]; rewrite EF; auto).
    unfold sfd_load. cbn [at_cwd]. rewrite (lacks_spec _ _ L'). unfold sfd_steps. cbv zeta. change (archive (forget w')) with (archive w').
    cbn [forget w_file w_remote]. rewrite path_eqb_refl. destruct (exists_ (forget w') _); reflexivity.
Qed.
(** With the archive in pooch's cache, the maps are never unpacked into another (new or incomplete) directory: every load fails,
    with or without a connection. *)
Definition stuck (w : world) (d : path) : Prop := cached w /\ lacks w d /\ lacks w (d ++ [master]).
Lemma stuck_load : forall w d, stuck w d -> exists w', sfd_load w (Abs d) = (Err ValueError, w') /\ stuck w' d.
Proof.
  intros w d (C & L & LM). unfold sfd_load. cbn [at_cwd]. rewrite (lacks_spec _ _ L). unfold sfd_steps. cbv zeta. rewrite (proj2 (cached_bool _) C). cbn [at_cwd extract_dir].
  set (mk := if exists_ w d then [] else [mkdirs d]).
  assert (D : exists_ (run mk w) d = true).
  { subst mk. destruct (exists_ w d) eqn:E; [exact E|]. unfold run. cbn [fold_left]. rewrite exists_mkdirs, prefix_self. apply orb_true_r. }
  rewrite D, app_nil_r. assert (K : archive (run mk w) = archive w) by (subst mk; destruct (exists_ w d); reflexivity).
  assert (F : w_file (run mk w) = w_file w) by (subst mk; destruct (exists_ w d); reflexivity).
  assert (EQ : forall r, r <> [] -> exists_ (run mk w) (d ++ r) = exists_ w (d ++ r)).
  { intros r Hr. subst mk. destruct (exists_ w d); [reflexivity|]. unfold run. cbn [fold_left]. rewrite exists_mkdirs, longer_not_prefix, orb_false_r by auto. reflexivity. }
  assert (S' : stuck (run mk w) d).
  { split; [|split].
    - unfold cached in *. now rewrite K, F.
    - unfold lacks in *. now rewrite !EQ by discriminate.
    - unfold lacks in *. rewrite <- !app_assoc in *. cbn [app] in *. now rewrite !EQ by discriminate. }
  exists (run mk w). split; auto. rewrite (lacks_spec _ _ (proj2 (proj2 S'))). reflexivity.
Qed.
Theorem C90_stuck_refuted : forall remotes w d, stuck w d -> Forall (fun o => o = Err ValueError) (fst (sfd_loads w (Abs d) remotes)) /\ length (fst (sfd_loads w (Abs d) remotes)) = length remotes.
Proof.
  induction remotes as [|r rs IH]; intros w d H; [split; [constructor|reflexivity]|]. cbn [sfd_loads].
  destruct (stuck_load (network r w) d H) as (w1 & E & S). rewrite E. destruct (IH w1 d S) as [I1 I2]. destruct (sfd_loads w1 (Abs d) rs) as [os w2]. cbn [fst] in *. split; [constructor; auto|simpl; congruence].
Qed.
(** A new directory after an installation elsewhere. *)
Theorem C90_second_directory_refuted : forall w d1 d2 p w' remotes, lacks w d1 -> sfd_load w (Abs d1) = (Ok p, w') -> lacks w' d2 -> lacks w' (d2 ++ [master]) -> remotes <> [] ->
  Forall (fun o => o = Err ValueError) (fst (sfd_loads w' (Abs d2) remotes)).
Proof.
  intros w d1 d2 p w' remotes L H L2 LM _. apply C90_stuck_refuted. split; [|auto]. unfold sfd_load in H. cbn [at_cwd] in H. rewrite (lacks_spec _ _ L) in H.
  destruct (sfd_steps w (Abs d1)) as [l [e|]] eqn:S; [discriminate|]. injection H as _ <-. apply (steps_done _ _ _ S).
Qed.
(** An interruption of the first installation once the archive is complete and before the last file is unpacked: no later load
    succeeds.  (The cache is not inside the data directory.)  An earlier interruption does no harm. *)
Definition before (w : world) (d : path) : nat := if exists_ w d then 0 else 1.
Theorem C90_crash_refuted : forall w d k remotes, lacks w d -> exists_ w (d ++ [sgp]) = false -> exists_ w (d ++ [master; sgp]) = false -> ~ cached w -> w_remote w sfd_url = Some good -> is_prefix d (w_cache w) = false ->
  before w d + 2 <= k < before w d + 5 -> Forall (fun o => o = Err ValueError) (fst (sfd_loads (sfd_crash k w (Abs d)) (Abs d) remotes)).
Proof.
  intros w d k remotes L L1 L2 C R P K. apply C90_stuck_refuted. unfold sfd_crash. cbn [at_cwd]. rewrite (lacks_spec _ _ L). unfold sfd_steps. cbv zeta. cbn [at_cwd extract_dir].
  destruct (match w_file w (archive w) with Some c => Z.eqb c good | None => false end) eqn:CB; [apply cached_bool in CB; contradiction|]. rewrite R. replace (Z.eqb good good) with true by reflexivity. cbn [fst].
  set (mk := if exists_ w d then [] else [mkdirs d]). assert (LK : length mk = before w d) by (unfold before; subst mk; destruct (exists_ w d); reflexivity).
  rewrite firstn_app. rewrite firstn_all2 by lia. rewrite LK. set (j := k - before w d) in *. assert (J : j = 2 \/ j = 3 \/ j = 4) by lia.
  rewrite run_app. set (w0 := run mk w).
  assert (K0 : w_cache w0 = w_cache w) by (subst w0 mk; destruct (exists_ w d); reflexivity).
  assert (E0 : forall r, r <> [] -> exists_ w0 (d ++ r) = exists_ w (d ++ r)).
  { intros r Hr. subst w0 mk. destruct (exists_ w d); [reflexivity|]. unfold run. cbn [fold_left]. rewrite exists_mkdirs, longer_not_prefix, orb_false_r by auto. reflexivity. }
  set (w1 := put (archive w) good (mkdirs (w_cache w) w0)).
  assert (K1 : archive w1 = archive w) by (unfold archive; cbn; now rewrite K0).
  assert (C1 : w_file w1 (archive w) = Some good) by (unfold w1, put; cbn [w_file]; now rewrite path_eqb_refl).
  assert (E1 : forall p f, (f = sgp /\ (p = d \/ p = d ++ [master])) -> exists_ w1 (p ++ [f]) = false).
  { intros p f (-> & HP). unfold w1. rewrite exists_put, exists_mkdirs. unfold archive. rewrite (proj2 (path_eqb_false _ _) (app_last_neq _ _ _ _ sgp_archive)).
    assert (Q : exists r, r <> [] /\ p ++ [sgp] = d ++ r /\ exists_ w (d ++ r) = false).
    { destruct HP as [-> | ->]; [exists [sgp]|exists [master; sgp]]; repeat split; try discriminate; auto. now rewrite <- app_assoc. }
    destruct Q as (r & Q1 & -> & Q3). rewrite E0, Q3 by auto. cbn [orb]. apply not_true_is_false. intros T. apply is_prefix_spec in T. destruct T as [s T].
    rewrite <- app_assoc in T. rewrite T, prefix_app in P. discriminate. }
  assert (X : stuck w1 d /\ stuck (mkdirs (d ++ [master]) w1) d /\ stuck (put (d ++ [master; ngp]) 1 (mkdirs (d ++ [master]) w1)) d).
  { assert (A : forall p, p = d \/ p = d ++ [master] -> exists_ w1 (p ++ [sgp]) = false) by (intros; now apply E1).
    assert (B : forall p, p = d \/ p = d ++ [master] -> exists_ (mkdirs (d ++ [master]) w1) (p ++ [sgp]) = false).
    { intros p Hp. rewrite exists_mkdirs, A by auto. cbn [orb]. destruct Hp as [-> | ->].
      - apply not_true_is_false. intros T. apply is_prefix_spec in T. destruct T as [s T]. rewrite <- app_assoc in T. apply app_inv_head in T. discriminate.
      - apply longer_not_prefix. discriminate. }
    assert (B2 : forall p, p = d \/ p = d ++ [master] -> exists_ (put (d ++ [master; ngp]) 1 (mkdirs (d ++ [master]) w1)) (p ++ [sgp]) = false).
    { intros p Hp. rewrite exists_put, B by auto. rewrite orb_false_r. apply path_eqb_false. replace (d ++ [master; ngp]) with ((d ++ [master]) ++ [ngp]) by now rewrite <- app_assoc. apply app_last_neq. discriminate. }
    split; [|split]; (split; [|split; right; auto]); unfold cached.
    - now rewrite K1.
    - change (archive (mkdirs (d ++ [master]) w1)) with (archive w1). rewrite K1. exact C1.
    - change (archive (put (d ++ [master; ngp]) 1 (mkdirs (d ++ [master]) w1))) with (archive w1). rewrite K1. unfold put. cbn [w_file]. rewrite (proj2 (path_eqb_false _ _)); [exact C1|].
      replace (d ++ [master; ngp]) with ((d ++ [master]) ++ [ngp]) by now rewrite <- app_assoc. apply app_last_neq. discriminate. }
  destruct X as (X1 & X2 & X3). destruct J as [-> | [-> | ->]]; cbn [firstn fold_left extraction]; auto.
Qed.
Theorem C90_crash_early : forall w d k, lacks w d -> ~ cached w -> w_remote w sfd_url = Some good -> is_prefix d (w_cache w) = false -> k < before w d + 2 ->
  exists w', sfd_load (sfd_crash k w (Abs d)) (Abs d) = (Ok (d ++ [master]), w').
Proof.
  intros w d k L C R P K.
  assert (X : lacks (sfd_crash k w (Abs d)) d /\ ~ cached (sfd_crash k w (Abs d)) /\ w_remote (sfd_crash k w (Abs d)) sfd_url = Some good).
  { unfold sfd_crash. cbn [at_cwd]. rewrite (lacks_spec _ _ L). pose proof (neutral k w (Abs d)) as N. cbv zeta in N. destruct N as (N1 & N2 & N3). rewrite N3.
    unfold sfd_steps in *. cbv zeta in *. cbn [at_cwd extract_dir] in *.
    destruct (match w_file w (archive w) with Some c => Z.eqb c good | None => false end) eqn:CB; [apply cached_bool in CB; contradiction|]. rewrite R in *. replace (Z.eqb good good) with true in * by reflexivity. cbn [fst] in *.
    assert (NP : forall r, r <> [] -> is_prefix (d ++ r) (w_cache w) = false).
    { intros r Hr. apply not_true_is_false. intros T. apply is_prefix_spec in T. destruct T as [s T]. rewrite <- app_assoc in T. rewrite T, prefix_app in P. discriminate. }
    unfold before in K. destruct (exists_ w d) eqn:E.
    - cbn [app] in *. assert (J : k = 0 \/ k = 1) by lia. destruct J as [-> | ->]; cbn [firstn run fold_left].
      + auto.
      + split; [|split; auto]. unfold lacks in *. rewrite !exists_mkdirs, !NP by discriminate. rewrite !orb_false_r. exact L.
    - cbn [app] in *. assert (J : k = 0 \/ k = 1 \/ k = 2) by lia. destruct J as [-> | [-> | ->]]; cbn [firstn run fold_left].
      + auto.
      + split; [|split; auto]. unfold lacks in *. rewrite !exists_mkdirs, !longer_not_prefix by discriminate. rewrite !orb_false_r. exact L.
      + split; [|split; auto]. unfold lacks in *. rewrite !exists_mkdirs, !NP, !longer_not_prefix by discriminate. rewrite !orb_false_r. exact L. }
  destruct X as (X1 & X2 & X3). destruct (C90_first _ d X1 X2 X3) as (w' & H & _). eauto.
Qed.
(** A directory given relative to the working directory: the archive is unpacked below pooch's cache, where nobody looks. *)
Theorem C90_relative_refuted : forall w r, lacks w (w_cwd w ++ r) -> w_cwd w <> w_cache w -> (forall p, w_file w (w_cwd w ++ r ++ p) = None /\ (p <> [] -> is_prefix (w_cwd w ++ r ++ p) (w_cache w ++ r ++ [master]) = false /\ is_prefix (w_cwd w ++ r ++ p) (w_cache w) = false /\ w_dir w (w_cwd w ++ r ++ p) = false)) ->
  exists e w', sfd_load w (Rel r) = (Err e, w').
Proof.
  intros w r L N H. unfold sfd_load. cbn [at_cwd]. rewrite (lacks_spec _ _ L). destruct (sfd_steps w (Rel r)) as [l [e|]] eqn:S; [eauto|]. cbv zeta.
  assert (Z : exists_ (run l w) ((w_cwd w ++ r) ++ [master; ngp]) = false).
  { assert (NP : path_eqb ((w_cwd w ++ r) ++ [master; ngp]) (w_cache w ++ r ++ [master; ngp]) = false /\ path_eqb ((w_cwd w ++ r) ++ [master; ngp]) (w_cache w ++ r ++ [master; sgp]) = false).
    { rewrite <- app_assoc. split; apply path_eqb_false; intros E.
      - apply app_inv_tail in E. contradiction.
      - rewrite !app_assoc in E. replace [master; ngp] with ([master] ++ [ngp]) in E by reflexivity. replace [master; sgp] with ([master] ++ [sgp]) in E by reflexivity. rewrite !app_assoc in E. apply app_inj_tail in E. destruct E as [_ E]. discriminate. }
    destruct NP as [NP1 NP2]. destruct (H [master; ngp]) as [H1 H2]. destruct (H2 ltac:(discriminate)) as (H3 & H4 & H5). rewrite app_assoc in H1, H3, H4, H5.
    assert (E0 : exists_ w ((w_cwd w ++ r) ++ [master; ngp]) = false) by (unfold exists_; now rewrite H1, H5).
    assert (EX : forall w0 w1, exists_ w1 ((w_cwd w ++ r) ++ [master; ngp]) = false -> exists_ (run (extraction (w_cache w ++ r) w0) w1) ((w_cwd w ++ r) ++ [master; ngp]) = false).
    { intros w0 w1 E. unfold run, extraction. cbn [fold_left]. rewrite <- !(app_assoc (w_cache w) r). rewrite !exists_put, exists_mkdirs, NP1, NP2, E, H3. reflexivity. }
    unfold sfd_steps in S. cbv zeta in S. cbn [at_cwd extract_dir] in S. set (mk := if exists_ w (w_cwd w ++ r) then [] else [mkdirs (w_cwd w ++ r)]) in *.
    assert (M : exists_ (run mk w) ((w_cwd w ++ r) ++ [master; ngp]) = false).
    { subst mk. destruct (exists_ w (w_cwd w ++ r)); [exact E0|]. unfold run. cbn [fold_left]. rewrite exists_mkdirs, E0. cbn [orb]. apply longer_not_prefix. discriminate. }
    destruct (match w_file w (archive w) with Some c => Z.eqb c good | None => false end).
    - injection S as <-. rewrite run_app. destruct (exists_ (run mk w) (w_cache w ++ r)); [exact M|]. now apply EX.
    - destruct (w_remote w sfd_url) as [c|]; [|discriminate]. destruct (Z.eqb c good); [|discriminate]. injection S as <-. rewrite run_app.
      change (run (mkdirs (w_cache w) :: put (archive w) good :: extraction (w_cache w ++ r) w) (run mk w)) with (run (extraction (w_cache w ++ r) w) (put (archive w) good (mkdirs (w_cache w) (run mk w)))).
      apply EX. rewrite exists_put, exists_mkdirs, M, H4. cbn [orb]. rewrite orb_false_r. unfold archive. apply path_eqb_false.
      replace ((w_cwd w ++ r) ++ [master; ngp]) with (((w_cwd w ++ r) ++ [master]) ++ [ngp]) by (now rewrite <- app_assoc). apply app_last_neq. discriminate. }
  rewrite lacks_spec; [eauto|]. left. rewrite <- app_assoc. exact Z.
Qed.
(** Concrete worlds. *)
Definition nothing : world := mkW (fun _ => None) (fun _ => false) (fun u => if String.eqb u sfd_url then Some good else None) ["home"%string] ["var"%string; "cache"%string].
Example C90_case : (exists w', sfd_load nothing (Abs ["data"%string]) = (Ok ["data"%string; master], w') /\ lacks w' ["data"%string] /\ fst (sfd_load w' (Abs ["other"%string])) = Err ValueError) /\
  lacks nothing ["data"%string] /\ ~ cached nothing /\ is_prefix ["data"%string] (w_cache nothing) = false /\
  fst (sfd_load (sfd_crash 4 nothing (Abs ["data"%string])) (Abs ["data"%string])) = Err ValueError /\
  fst (sfd_load (sfd_crash 2 nothing (Abs ["data"%string])) (Abs ["data"%string])) = Ok ["data"%string; master] /\
  fst (sfd_load nothing (Rel ["data"%string])) = Err ValueError.
Proof.
  repeat match goal with |- _ /\ _ => split end; try reflexivity; try discriminate.
  - eexists. split; [reflexivity|]. split; [left; reflexivity|reflexivity].
  - left. reflexivity.
Qed.
