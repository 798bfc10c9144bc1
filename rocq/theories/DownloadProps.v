(** Installing data files (C89) and the SFD dust map (C90). *)
From Coq Require Import String Ascii List Bool Arith ZArith Lia.
From Verif Require Import Base BaseFacts DownloadModel.
Import ListNotations.
Open Scope list_scope.
Open Scope nat_scope.

Lemma path_eqb_true : forall p q, path_eqb p q = true <-> p = q.
Proof. intros p q. unfold path_eqb. destruct (list_eq_dec string_dec p q); split; intros; auto; discriminate. Qed.
Lemma path_eqb_refl : forall p, path_eqb p p = true. Proof. intros. now apply path_eqb_true. Qed.
Lemma path_eqb_false : forall p q, path_eqb p q = false <-> p <> q.
Proof. intros p q. unfold path_eqb. destruct (list_eq_dec string_dec p q); split; intros; auto; congruence. Qed.
Lemma is_prefix_spec : forall p q, is_prefix p q = true <-> exists r, q = p ++ r.
Proof.
  intros p q. unfold is_prefix. rewrite path_eqb_true. split.
  - intros H. exists (skipn (length p) q). rewrite H at 1. now rewrite firstn_skipn.
  - intros [r ->]. rewrite firstn_app, firstn_all, Nat.sub_diag. simpl. now rewrite app_nil_r.
Qed.
Lemma prefix_self : forall p, is_prefix p p = true. Proof. intros. apply is_prefix_spec. exists []. now rewrite app_nil_r. Qed.
Lemma prefix_app : forall p r, is_prefix p (p ++ r) = true. Proof. intros. apply is_prefix_spec. eauto. Qed.
Lemma longer_not_prefix : forall p r, r <> [] -> is_prefix (p ++ r) p = false.
Proof.
  intros p r H. apply not_true_is_false. intros T. apply is_prefix_spec in T. destruct T as [s E]. apply (f_equal (@length string)) in E.
  rewrite !app_length in E. destruct r; [congruence|]. simpl in E. lia.
Qed.

(** ** Single files *)
(** What the user relies on, independent of the steps: a file is as it was, or has the complete content the server sends. *)
Definition whole (w w' : world) (p : path) (url : string) : Prop := w_file w' p = w_file w p \/ (w_file w' p <> None /\ w_file w' p = w_remote w url).

(** A file that is there is not downloaded again, whatever the network and the URL. *)
Theorem C89_present : forall w p url, exists_ w p = true -> download w p url false = (Ok true, w).
Proof. intros w p url H. unfold download. now rewrite H. Qed.
(** A missing file is downloaded, complete; nothing else changes. *)
Theorem C89_missing : forall w p u c, exists_ w p = false -> u <> ""%string -> w_remote w u = Some c -> forall force,
  exists w', download w p (Some u) force = (Ok true, w') /\ w_file w' p = Some c /\ w_dir w' (removelast p) = true /\ (forall q, q <> p -> w_file w' q = w_file w q) /\
    download w' p (Some u) false = (Ok true, w').
Proof.
  intros w p u c H HU HR force. unfold download at 1. rewrite H, andb_false_r. destruct u as [|a u]; [congruence|].
  unfold download_steps. rewrite H, HR. cbn [run fold_left app]. eexists. split; [|split; [|split; [|split]]].
  - unfold put at 1, mkdirs at 1. unfold exists_. cbn [w_file w_dir]. rewrite path_eqb_refl. reflexivity.
  - unfold put. cbn [w_file]. now rewrite path_eqb_refl.
  - unfold put, mkdirs. cbn [w_dir]. rewrite prefix_self. apply orb_true_r.
  - intros q Hq. unfold put, mkdirs. cbn [w_file]. apply path_eqb_false in Hq. now rewrite Hq.
  - apply C89_present. unfold exists_, put. cbn [w_file]. now rewrite path_eqb_refl.
Qed.
(** True is only returned for a path that exists; no URL is a ValueError; without an answer there is an exception, and no file. *)
Theorem C89_sound : forall w p url force w', download w p url force = (Ok true, w') -> exists_ w' p = true.
Proof.
  intros w p url force w'. unfold download. destruct (negb force && exists_ w p)%bool eqn:E.
  - intros H. injection H as <-. apply andb_prop in E. tauto.
  - destruct url as [[|a u]|]; try discriminate. destruct (download_steps w p (String a u)) as [l [e|]]; intros H; [discriminate|]. injection H as H <-. exact H.
Qed.
Theorem C89_refused : forall w p force, exists_ w p = false ->
  download w p None force = (Err ValueError, w) /\ download w p (Some ""%string) force = (Err ValueError, w) /\
  forall u, u <> ""%string -> w_remote w u = None -> exists w', download w p (Some u) force = (Err RuntimeError, w') /\ w_file w' = w_file w.
Proof.
  intros w p force H. unfold download. rewrite H, andb_false_r. split; [|split]; auto. intros u HU HR. destruct u as [|a u]; [congruence|].
  unfold download_steps. rewrite H, HR. eexists. split; reflexivity.
Qed.
(** An interruption at any moment leaves the file as it was or complete, and all other files as they were; when the file is not there
    the next attempt downloads it. *)
Theorem C89_crash : forall k w p u force, let w' := download_crash k w p (Some u) force in
  whole w w' p u /\ (forall q, q <> p -> w_file w' q = w_file w q) /\
  forall c, exists_ w' p = false -> u <> ""%string -> w_remote w u = Some c -> exists w'', download w' p (Some u) false = (Ok true, w'') /\ w_file w'' p = Some c.
Proof.
  intros k w p u force w'.
  assert (R : w_remote w' u = w_remote w u /\ whole w w' p u /\ (forall q, q <> p -> w_file w' q = w_file w q)).
  { subst w'. unfold download_crash. destruct (negb force && exists_ w p)%bool; [unfold whole; auto|]. destruct u as [|a u]; [unfold whole; auto|].
    unfold download_steps. destruct (exists_ w p).
    - destruct k as [|k]; cbn [fst firstn run fold_left]; [unfold whole; auto|]. rewrite firstn_nil. cbn. unfold whole; auto.
    - destruct (w_remote w (String a u)) as [c|] eqn:ER.
      + destruct k as [|[|k]]; cbn [fst firstn run fold_left app]; [unfold whole; rewrite ER; auto | unfold whole, mkdirs; cbn; rewrite ER; auto |].
        rewrite firstn_nil. cbn [fold_left]. unfold whole, put, mkdirs. cbn [w_file w_remote]. rewrite path_eqb_refl. split; [exact ER|]. split.
        * right. split; [discriminate|congruence].
        * intros q Hq. apply path_eqb_false in Hq. now rewrite Hq.
      + destruct k as [|k]; cbn [fst firstn run fold_left app]; [unfold whole; rewrite ER; auto|]. rewrite firstn_nil. cbn [fold_left]. unfold whole, mkdirs. cbn. rewrite ER. auto. }
  destruct R as (R1 & R2 & R3). split; auto. split; auto. intros c HE HU HR.
  destruct (C89_missing w' p u c HE HU ltac:(congruence) false) as (w'' & A & B & _). eauto.
Qed.
(** [force_download=True] does not download a file that is there: the old content stays, whatever the server has. *)
Theorem C89_force_refuted : forall w p u, exists_ w p = true -> u <> ""%string -> exists w', download w p (Some u) true = (Ok true, w') /\ w_file w' = w_file w.
Proof.
  intros w p u H HU. unfold download. cbn [negb andb]. destruct u as [|a u]; [congruence|]. unfold download_steps. rewrite H. cbn [run fold_left].
  exists (mkdirs (removelast p) w). split; [|reflexivity]. assert (X : exists_ (mkdirs (removelast p) w) p = true).
  { unfold exists_ in *. unfold mkdirs. cbn [w_file w_dir]. destruct (w_file w p); auto. cbn [orb] in *. now rewrite H. }
  now rewrite X.
Qed.

(** ** Tables by URL *)
(** The first table of a URL is what the server has for it, also when asked for again without a connection. *)
Theorem C89_from_url : forall base w url c force, last_part url <> ""%string -> exists_ w (url_path base url) = false -> w_remote w url = Some c ->
  exists w', from_url base w url force = (Ok c, w') /\ forall remote, from_url base (network remote w') url false = (Ok c, network remote w').
Proof.
  intros base w url c force HL HE HR. assert (HU : url <> ""%string) by (intros ->; now apply HL).
  destruct (C89_missing w (url_path base url) url c HE HU HR force) as (w' & A & B & _). exists w'. unfold from_url. rewrite A, B. split; auto.
  intros remote. rewrite C89_present by (unfold exists_, network; cbn [w_file]; now rewrite B). cbn [w_file network]. now rewrite B.
Qed.
(** Two URLs that end alike share one file: the second gets the first one's table, even if forced. *)
Theorem C89_same_name_refuted : forall base w u1 u2 c1 force, last_part u1 = last_part u2 -> last_part u1 <> ""%string ->
  exists_ w (url_path base u1) = false -> w_remote w u1 = Some c1 ->
  exists w1 w2, from_url base w u1 false = (Ok c1, w1) /\ from_url base w1 u2 force = (Ok c1, w2).
Proof.
  intros base w u1 u2 c1 force HL HN HE HR. assert (HU : u1 <> ""%string) by (intros ->; now apply HN). assert (HU2 : u2 <> ""%string) by (intros ->; apply HN; now rewrite HL).
  destruct (C89_missing w (url_path base u1) u1 c1 HE HU HR false) as (w1 & A & B & _). exists w1.
  assert (P : url_path base u2 = url_path base u1) by (unfold url_path; now rewrite HL). unfold from_url at 1. rewrite A, B. unfold from_url. rewrite P.
  assert (X : exists_ w1 (url_path base u1) = true) by (unfold exists_; now rewrite B).
  destruct force.
  - destruct (C89_force_refuted w1 (url_path base u1) u2 X HU2) as (w2 & E1 & E2). exists w2. rewrite E1, E2, B. auto.
  - exists w1. rewrite (C89_present _ _ _ X), B. auto.
Qed.
Example C89_case : let w := mkW (fun _ => None) (fun _ => false) (fun u => if String.eqb u "https://a/v1/baseline.db" then Some 1%Z else if String.eqb u "https://a/v2/baseline.db" then Some 2%Z else None) ["home"%string] ["cache"%string] in
  last_part "https://a/v1/baseline.db" = "baseline.db"%string /\ last_part "https://a/v2/baseline.db" = "baseline.db"%string /\
  exists w1 w2, from_url ["data"%string] w "https://a/v1/baseline.db" false = (Ok 1%Z, w1) /\ from_url ["data"%string] w1 "https://a/v2/baseline.db" true = (Ok 1%Z, w2) /\
  exists w3, from_url ["data"%string] w "https://a/v2/baseline.db" false = (Ok 2%Z, w3).
Proof. split; [reflexivity|]. split; [reflexivity|]. do 2 eexists. split; [reflexivity|]. split; [reflexivity|]. eexists. reflexivity. Qed.
