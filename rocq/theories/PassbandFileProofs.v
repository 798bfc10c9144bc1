(** Lemmas about PassbandFileModel. *)
From Coq Require Import Reals String Ascii List Bool Arith ZArith Lia Lra.
From Verif Require Import Base BaseFacts RealBase PassbandModel PassbandProofs PassbandProps PassbandGroupProps DownloadModel DownloadProps PassbandFileModel.
Import ListNotations.
Open Scope string_scope.
Open Scope list_scope.
Open Scope nat_scope.

(** ** What is in a file *)
(** The file called [name] with content [c] holds the table [raw], whose wavelengths are in the unit [u] when the caller gave the unit [given]. *)
Inductive holds (parse : string -> Z -> content) (name : string) (c : Z) (given : wunits) : table -> wunits -> Prop :=
| holds_text rows :
    In (suffix name) [".csv"; ".ecsv"; ".txt"; ".dat"] -> parse (suffix name) c = Text rows ->
    2 <= length rows -> Forall (fun r => length r = 2) rows ->
    holds parse name c given (map (fun r => (nth 0 r 0%R, nth 1 r 0%R)) rows) given
| holds_votable a b un raw u :
    In (suffix name) [".xml"; ".vot"; ".votable"] -> parse (suffix name) c = Vo (mkVO [a; b] (Some un) raw) ->
    String.prefix "wave" (lower a) = true ->
    (In (lower un) ["nm"; "nanometers"; "namo"; "nanometer"] /\ u = Nm \/
     In (lower un) ["a"; "aa"; "angstrom"; "angstroms"] /\ u = Angstrom) ->
    holds parse name c given raw u.

Lemma diffs_scaled : forall t : table, diffs (xs (map (fun p => (fst p * 10, snd p)%R) t)) = map (fun d => (d * 10)%R) (diffs (xs t)).
Proof.
  induction t as [|p [|p2 t] IH]; auto. cbn [map xs fst diffs] in *. f_equal; [lra|]. exact IH.
Qed.
Lemma existsb_scaled : forall (f : R -> bool) l, (forall d, f (d * 10)%R = f d) -> existsb f (map (fun d => (d * 10)%R) l) = existsb f l.
Proof. intros f l H. induction l as [|d l IH]; cbn [map existsb]; auto. now rewrite H, IH. Qed.
Lemma ltb_scaled : forall d, Rltb (d * 10) 0 = Rltb d 0.
Proof.
  intros d. destruct (Rltb d 0) eqn:E.
  - apply Rltb_true. apply Rltb_true in E. lra.
  - apply Rltb_false. apply Rltb_false in E. lra.
Qed.
Lemma eqb_scaled : forall d, Reqb (d * 10) 0 = Reqb d 0.
Proof.
  intros d. destruct (Reqb d 0) eqn:E.
  - apply Reqb_true. apply Reqb_true in E. lra.
  - apply Reqb_false. apply Reqb_false in E. lra.
Qed.
Lemma process_empty : forall d q, exists e, process_table [] d q = Err e.
Proof.
  intros d q. unfold process_table. replace (interpolate_table [] d) with (@Ok table []) by (destruct d; reflexivity). cbn [bind]. unfold trim_table. destruct q as [q|].
  - destruct (Reqb q 0); [exists ValueError; reflexivity|]. destruct (Rltb q 0 || Rleb (1 / 2) q)%bool; [exists ValueError|exists IndexError]; reflexivity.
  - exists ValueError. reflexivity.
Qed.
Lemma make_empty : forall s f d q u p, pb_make [] s f d q u <> Ok p.
Proof.
  intros s f d q u p H. destruct (process_empty d q) as (e & E). unfold pb_make, validate in H. cbn [xs map diffs existsb] in H.
  destruct u; cbn [bind] in H; try rewrite E in H; discriminate.
Qed.
(** The unit is converted once: loading and then constructing is the same as constructing from the numbers in the file. *)
Lemma convert_once : forall t u s f d q p,
  bind (in_angstroms t u) (fun t => pb_make t s f d q Angstrom) = Ok p <-> pb_make t s f d q u = Ok p.
Proof.
  intros t u s f d q p. destruct t as [|r t].
  { split; intros H; [discriminate|]. destruct (make_empty _ _ _ _ _ _ H). }
  unfold in_angstroms. set (l := r :: t). clearbody l. clear r t. destruct u; cbn [bind].
  - rewrite diffs_scaled, !existsb_scaled by (apply ltb_scaled || apply eqb_scaled). unfold pb_make, validate.
    destruct (existsb (fun x => Rltb x 0) (diffs (xs l))) eqn:E1; cbn [bind]; [tauto|]. destruct (existsb (fun x => Reqb x 0) (diffs (xs l))) eqn:E2; cbn [bind]; [tauto|].
    rewrite diffs_scaled, !existsb_scaled by (apply ltb_scaled || apply eqb_scaled). rewrite E1, E2. cbn [bind]. tauto.
  - unfold pb_make, validate. destruct (existsb (fun x => Rltb x 0) (diffs (xs l))) eqn:E1; cbn [bind]; [tauto|]. destruct (existsb (fun x => Reqb x 0) (diffs (xs l))) eqn:E2; cbn [bind]; [tauto|].
    rewrite E1, E2. cbn [bind]. tauto.
  - unfold pb_make, validate. destruct (existsb _ _); [split; discriminate|]. destruct (existsb _ _); split; discriminate.
Qed.
Lemma two_columns_spec : forall rows t, two_columns rows = Ok t <->
  2 <= length rows /\ Forall (fun r => length r = 2) rows /\ t = map (fun r => (nth 0 r 0%R, nth 1 r 0%R)) rows.
Proof.
  intros rows t. unfold two_columns. destruct rows as [|r [|r2 rows]].
  - split; [discriminate|]. cbn [length]. lia.
  - split; [discriminate|]. cbn [length]. lia.
  - destruct (forallb (fun s => length s =? length r) (r2 :: rows)) eqn:E; cbn [negb].
    + rewrite forallb_forall in E. destruct (length r <=? 1) eqn:E1.
      { split; [discriminate|]. intros (_ & F & _). inversion F as [|? ? L F']; subst. apply Nat.leb_le in E1. lia. }
      destruct (length r =? 2) eqn:E2; cbn [negb].
      * apply Nat.eqb_eq in E2. split.
        -- intros H. injection H as <-. split; [cbn [length]; lia|]. split; auto. constructor; auto. apply Forall_forall. intros x HX. apply E in HX. apply Nat.eqb_eq in HX. lia.
        -- intros (_ & _ & ->). reflexivity.
      * split; [discriminate|]. intros (_ & F & _). inversion F as [|? ? L F']; subst. apply Nat.eqb_neq in E2. lia.
    + split; [discriminate|]. intros (_ & F & _). inversion F as [|? ? L F']; subst. exfalso. assert (X : forallb (fun s => length s =? length r) (r2 :: rows) = true).
      { apply forallb_forall. intros x HX. rewrite Forall_forall in F'. rewrite (F' x HX), L. reflexivity. }
      congruence.
Qed.
Lemma smem_spec : forall s l, smem s l = true <-> In s l.
Proof. intros. apply smem_In. Qed.
Lemma not_both : forall s, In s [".csv"; ".ecsv"; ".txt"; ".dat"] -> In s [".xml"; ".vot"; ".votable"] -> False.
Proof. intros s [<-|[<-|[<-|[<-|[]]]]] [H|[H|[H|[]]]]; discriminate. Qed.
Lemma unit_names : forall s, In s ["nm"; "nanometers"; "namo"; "nanometer"] -> In s ["a"; "aa"; "angstrom"; "angstroms"] -> False.
Proof. intros s [<-|[<-|[<-|[<-|[]]]]] [H|[H|[H|[H|[]]]]]; discriminate. Qed.
Lemma load_table_spec : forall parse w p given s f d q pb,
  bind (load_table parse w p given) (fun t => pb_make t s f d q Angstrom) = Ok pb <->
  exists c raw u, w_file w p = Some c /\ holds parse (file_name p) c given raw u /\ pb_make raw s f d q u = Ok pb.
Proof.
  intros parse w p given s f d q pb. unfold load_table. destruct (w_file w p) as [c|]; [|split; [discriminate|intros (c & _ & _ & H & _); discriminate]].
  set (name := file_name p). split.
  - intros H. exists c. cbv zeta in H. destruct (smem (suffix name) vo_suffixes) eqn:EV.
    + apply smem_spec in EV. destruct (parse (suffix name) c) as [rows|[fields un raw]|] eqn:EP; try discriminate. cbn [vo_fields vo_unit vo_rows] in H.
      destruct fields as [|a [|b [|? ?]]]; try discriminate. destruct (String.prefix "wave" (lower a)) eqn:EW; [|discriminate]. cbn [negb] in H.
      destruct un as [un|]; [|discriminate]. destruct (smem (lower un) nm_names) eqn:EN.
      * apply smem_spec in EN. exists raw, Nm. split; auto. split; [|now apply convert_once]. apply (holds_votable parse name c given a b un); auto.
      * destruct (smem (lower un) a_names) eqn:EA; [|discriminate]. apply smem_spec in EA. exists raw, Angstrom. split; auto. split; [|now apply convert_once].
        apply (holds_votable parse name c given a b un); auto.
    + destruct (smem (suffix name) text_suffixes) eqn:ET; [|discriminate]. apply smem_spec in ET. destruct (parse (suffix name) c) as [rows| |] eqn:EP; try discriminate.
      destruct (two_columns rows) as [t|] eqn:E2; [|discriminate]. cbn [bind] in H. apply two_columns_spec in E2. destruct E2 as (L & F & ->).
      exists (map (fun r => (nth 0 r 0%R, nth 1 r 0%R)) rows), given. split; auto. split; [|now apply convert_once]. now constructor.
  - intros (c' & raw & u & HC & H & M). injection HC as <-. cbv zeta. destruct H as [rows HS HP L F|a b un raw u HS HP HW HU].
    + destruct (smem (suffix name) vo_suffixes) eqn:EV; [apply smem_spec in EV; destruct (not_both _ HS EV)|].
      replace (smem (suffix name) text_suffixes) with true by (symmetry; now apply smem_spec). rewrite HP.
      replace (two_columns rows) with (@Ok table (map (fun r => (nth 0 r 0%R, nth 1 r 0%R)) rows)) by (symmetry; apply two_columns_spec; auto). cbn [bind]. now apply convert_once.
    + replace (smem (suffix name) vo_suffixes) with true by (symmetry; now apply smem_spec). rewrite HP. cbn [vo_fields vo_unit vo_rows]. rewrite HW. cbn [negb].
      destruct HU as [[HU ->]|[HU ->]].
      * replace (smem (lower un) nm_names) with true by (symmetry; now apply smem_spec). now apply convert_once.
      * destruct (smem (lower un) nm_names) eqn:EN; [apply smem_spec in EN; destruct (unit_names _ EN HU)|].
        replace (smem (lower un) a_names) with true by (symmetry; now apply smem_spec). now apply convert_once.
Qed.
(** What a file holds is determined. *)
Lemma holds_fun : forall parse name c given r1 u1 r2 u2, holds parse name c given r1 u1 -> holds parse name c given r2 u2 -> r1 = r2 /\ u1 = u2.
Proof.
  intros parse name c given r1 u1 r2 u2 [rows HS HP L F|a b un raw u HS HP HW HU] [rows' HS' HP' L' F'|a' b' un' raw' u' HS' HP' HW' HU']; try congruence.
  - rewrite HP in HP'. injection HP' as <-. auto.
  - rewrite HP in HP'. injection HP' as <- <- <- <-. split; auto. destruct HU as [[A ->]|[A ->]], HU' as [[B ->]|[B ->]]; auto; destruct (unit_names _ A B) || destruct (unit_names _ B A).
Qed.

(** ** Downloads keep what is there *)
Lemma download_keeps : forall w p url force r w' q c, download w p url force = (r, w') -> w_file w q = Some c -> w_file w' q = Some c.
Proof.
  intros w p url force r w' q c H HQ. unfold download in H. destruct (negb force && exists_ w p)%bool; [now injection H as <- <-|].
  destruct url as [[|a u]|]; try (now injection H as <- <-). unfold download_steps in H. destruct (exists_ w p) eqn:E.
  - cbv zeta in H. injection H as <- <-. exact HQ.
  - destruct (w_remote w (String a u)) as [c'|]; cbv zeta in H; injection H as <- <-; [|exact HQ].
    cbn [run fold_left app]. unfold put, mkdirs. cbn [w_file]. destruct (path_eqb q p) eqn:EQ; auto.
    unfold path_eqb in EQ. destruct (list_eq_dec string_dec q p) as [->|]; [|discriminate]. unfold exists_ in E. rewrite HQ in E. discriminate.
Qed.
Lemma download_remote : forall w p url force r w', download w p url force = (r, w') -> w_remote w' = w_remote w.
Proof.
  intros w p url force r w' H. unfold download in H. destruct (negb force && exists_ w p)%bool; [now injection H as <- <-|].
  destruct url as [[|a u]|]; try (now injection H as <- <-). unfold download_steps in H. destruct (exists_ w p) eqn:E.
  - cbv zeta in H. injection H as <- <-. reflexivity.
  - destruct (w_remote w (String a u)) as [c'|]; cbv zeta in H; injection H as <- <-; reflexivity.
Qed.
Lemma file_exists : forall w p c, w_file w p = Some c -> exists_ w p = true.
Proof. intros w p c H. unfold exists_. now rewrite H. Qed.

(** ** [from_file] *)
Definition with_force (b : bool) (f : params) : params := mkParams (f_survey f) (f_filter f) (f_delta f) (f_q f) (f_path f) (f_url f) (f_units f) b.
Lemma from_file_spec : forall parse base w f pb w', from_file parse base w f = (Ok pb, w') <->
  download w (table_path base f) (f_url f) (f_force f) = (Ok true, w') /\
  exists c raw u, w_file w' (table_path base f) = Some c /\ holds parse (file_name (table_path base f)) c (f_units f) raw u /\
    pb_make raw (f_survey f) (f_filter f) (f_delta f) (f_q f) u = Ok pb.
Proof.
  intros parse base w f pb w'. unfold from_file. cbv zeta. destruct (download w (table_path base f) (f_url f) (f_force f)) as [[[|]|e] w1].
  - split.
    + intros H. injection H as H <-. split; auto. now apply load_table_spec.
    + intros [H X]. injection H as <-. f_equal. now apply load_table_spec.
  - split; [discriminate|]. intros [H _]. discriminate.
  - split; [discriminate|]. intros [H _]. discriminate.
Qed.
Lemma from_file_keeps : forall parse base w f r w' q c, from_file parse base w f = (r, w') -> w_file w q = Some c -> w_file w' q = Some c.
Proof.
  intros parse base w f r w' q c H HQ. unfold from_file in H. cbv zeta in H. destruct (download w (table_path base f) (f_url f) (f_force f)) as [o w1] eqn:D.
  assert (X : w' = w1) by (destruct o as [[|]|]; injection H; congruence). subst w'. eapply download_keeps; eauto.
Qed.
(** When the file is there. *)
Lemma from_file_cached : forall parse base w f c raw u pb, f_force f = false -> w_file w (table_path base f) = Some c ->
  holds parse (file_name (table_path base f)) c (f_units f) raw u -> pb_make raw (f_survey f) (f_filter f) (f_delta f) (f_q f) u = Ok pb ->
  from_file parse base w f = (Ok pb, w).
Proof.
  intros parse base w f c raw u pb HF HC HH HM. apply from_file_spec. rewrite HF. split; [|eauto 10]. apply C89_present. eapply file_exists; eauto.
Qed.
(** After a success the same call needs no connection and gives the same passband, also after other files were added. *)
Lemma from_file_again : forall parse base w f pb w' w2, from_file parse base w f = (Ok pb, w') ->
  (forall q c, w_file w' q = Some c -> w_file w2 q = Some c) -> from_file parse base w2 (with_force false f) = (Ok pb, w2).
Proof.
  intros parse base w f pb w' w2 H K. apply from_file_spec in H. destruct H as (_ & c & raw & u & HC & HH & HM).
  eapply from_file_cached; [reflexivity|apply K; exact HC|exact HH|exact HM].
Qed.
Lemma from_file_built : forall parse base w f pb w', from_file parse base w f = (Ok pb, w') ->
  built_band pb /\ pb_survey pb = f_survey f /\ pb_filter pb = f_filter f.
Proof.
  intros parse base w f pb w' H. apply from_file_spec in H. destruct H as (_ & c & raw & u & _ & _ & HM). split.
  - exists raw, (f_survey f), (f_filter f), (f_delta f), (f_q f), u. exact HM.
  - destruct (make_inv _ _ _ _ _ _ _ HM) as (t0 & _ & _ & _ & _ & A & B). auto.
Qed.

(** ** Lists of files *)
Lemma Forall2_impl' : forall A B (P Q : A -> B -> Prop) l m, (forall a b, P a b -> Q a b) -> Forall2 P l m -> Forall2 Q l m.
Proof. intros A B P Q l m H F. induction F; constructor; auto. Qed.
Lemma load_all_Forall2 : forall parse base fs w ps w', load_all parse base w fs = (Ok ps, w') ->
  Forall2 (fun f p => exists w1 w2, from_file parse base w1 f = (Ok p, w2) /\ (forall q c, w_file w q = Some c -> w_file w1 q = Some c) /\
                      (forall q c, w_file w2 q = Some c -> w_file w' q = Some c)) fs ps /\
  (forall q c, w_file w q = Some c -> w_file w' q = Some c).
Proof.
  intros parse base. induction fs as [|f fs IH]; intros w ps w' H; cbn [load_all] in H.
  - injection H as <- <-. auto.
  - destruct (from_file parse base w f) as [[p|e] w1] eqn:E; [|discriminate]. destruct (load_all parse base w1 fs) as [[ps1|e] w2] eqn:E2; [|discriminate].
    injection H as <- <-. destruct (IH _ _ _ E2) as (F & K). split.
    + constructor.
      * exists w, w1. auto.
      * eapply Forall2_impl'; [|exact F]. intros f' p' (wa & wb & A & B & C). exists wa, wb. split; auto. split; auto.
        intros q c HQ. apply B. eapply from_file_keeps; eauto.
    + intros q c HQ. apply K. eapply from_file_keeps; eauto.
Qed.
Lemma load_all_again : forall parse base fs w ps w' w2, load_all parse base w fs = (Ok ps, w') ->
  (forall q c, w_file w' q = Some c -> w_file w2 q = Some c) -> load_all parse base w2 (map (with_force false) fs) = (Ok ps, w2).
Proof.
  intros parse base fs w ps w' w2 H K. destruct (load_all_Forall2 _ _ _ _ _ _ H) as (F & _). clear H. induction F as [|f p fs ps (wa & wb & A & _ & C) F IH]; cbn [map load_all]; auto.
  rewrite (from_file_again _ _ _ _ _ _ w2 A) by auto. rewrite IH. reflexivity.
Qed.
(** All files are there. *)
Lemma load_all_cached : forall parse base fs w r w', Forall (fun f => f_force f = false /\ w_file w (table_path base f) <> None) fs ->
  load_all parse base w fs = (r, w') -> w' = w /\ forall ps, r = Ok ps <-> Forall2 (fun f p => from_file parse base w f = (Ok p, w)) fs ps.
Proof.
  intros parse base. induction fs as [|f fs IH]; intros w r w' HF H; cbn [load_all] in H.
  - injection H as <- <-. split; auto. intros ps. split; [intros E; injection E as <-; constructor|intros F; now inversion F].
  - inversion HF as [|? ? [A B] HF']; subst. assert (D : download w (table_path base f) (f_url f) (f_force f) = (Ok true, w)).
    { rewrite A. apply C89_present. destruct (w_file w (table_path base f)) eqn:E; [|congruence]. eapply file_exists; eauto. }
    assert (X : exists o, from_file parse base w f = (o, w)) by (unfold from_file; cbv zeta; rewrite D; eauto). destruct X as (o & X). rewrite X in H. destruct o as [p|e].
    + destruct (load_all parse base w fs) as [[ps1|e] w2] eqn:E2; injection H as <- <-; destruct (IH _ _ _ HF' E2) as (-> & S2); split; auto; intros ps; split.
      * intros E. injection E as <-. constructor; auto. now apply S2.
      * intros F. inversion F as [|? p0 ? ps0 P0 F0]; subst. rewrite X in P0. injection P0 as <-. apply S2 in F0. congruence.
      * discriminate.
      * intros F. inversion F as [|? p0 ? ps0 P0 F0]; subst. apply S2 in F0. discriminate.
    + injection H as <- <-. split; auto. intros ps. split; [discriminate|]. intros F. inversion F as [|? p0 ? ps0 P0 F0]; subst. congruence.
Qed.

(** ** Members of a group made from a list *)
Lemma collect_snoc : forall l x, collect (l ++ [x]) = dset (pb_full x) x (collect l).
Proof. intros. unfold collect. now rewrite fold_left_app. Qed.
Lemma collect_get : forall l k p, dget k (collect l) = Some p <-> exists a b, l = a ++ p :: b /\ pb_full p = k /\ forall q, In q b -> pb_full q <> k.
Proof.
  intros l k p. induction l as [|x l IH] using rev_ind.
  - split; [discriminate|]. intros (a & b & E & _). destruct a; discriminate.
  - rewrite collect_snoc. rewrite dget_dset. destruct (String.eqb k (pb_full x)) eqn:E.
    + apply String.eqb_eq in E. subst k. split.
      * intros H. injection H as <-. exists l, []. repeat split; auto.
      * intros (a & b & EL & EF & N). destruct b as [|y b] using rev_ind.
        -- apply app_inj_tail in EL. destruct EL as [_ ->]. reflexivity.
        -- clear IHb. exfalso. assert (Y : x = y). { change (a ++ p :: (b ++ [y])) with (a ++ ((p :: b) ++ [y])) in EL. rewrite app_assoc in EL. apply app_inj_tail in EL. tauto. }
           subst y. apply (N x); auto. apply in_or_app. right. now left.
    + apply String.eqb_neq in E. rewrite IH. split.
      * intros (a & b & -> & EF & N). exists a, (b ++ [x]). split; [now rewrite <- app_assoc|]. split; auto. intros q HQ. apply in_app_or in HQ. destruct HQ as [HQ|[<-|[]]]; auto.
      * intros (a & b & EL & EF & N). destruct b as [|y b] using rev_ind.
        -- apply app_inj_tail in EL. destruct EL as [_ ->]. congruence.
        -- clear IHb. change (a ++ p :: (b ++ [y])) with (a ++ ((p :: b) ++ [y])) in EL. rewrite app_assoc in EL. apply app_inj_tail in EL. destruct EL as [-> ->].
           exists a, b. split; auto. split; auto. intros q HQ. apply N. apply in_or_app. now left.
Qed.
Lemma collect_In : forall l p, In p (map snd (collect l)) <-> exists a b, l = a ++ p :: b /\ forall q, In q b -> pb_full q <> pb_full p.
Proof.
  intros l p. destruct (collect_keyed l) as [K1 K2]. rewrite Forall_forall in K2. split.
  - intros H. apply in_map_iff in H. destruct H as ([k v] & E & H). cbn [snd] in E. subst v. pose proof (K2 _ H) as K. cbn [fst snd] in K. subst k.
    assert (G : dget (pb_full p) (collect l) = Some p) by (apply In_dget; auto). apply collect_get in G. destruct G as (a & b & -> & _ & N). eauto.
  - intros (a & b & E & N). assert (G : dget (pb_full p) (collect l) = Some p) by (apply collect_get; eauto 10). apply dget_In in G. apply in_map_iff. exists (pb_full p, p). auto.
Qed.
Lemma collect_nodup : forall l, NoDup (map pb_full l) -> collect l = map (fun p => (pb_full p, p)) l.
Proof.
  induction l as [|x l IH] using rev_ind; intros ND; auto. rewrite map_app in ND. cbn [map] in ND. apply NoDup_remove in ND. rewrite app_nil_r in ND. destruct ND as [ND NI].
  rewrite collect_snoc, IH by auto. rewrite map_app. cbn [map]. clear - NI. induction l as [|y l IHl]; auto. cbn [map dset app]. cbn [map] in NI.
  destruct (String.eqb (pb_full x) (pb_full y)) eqn:E; [apply String.eqb_eq in E; destruct NI; now left|]. f_equal. apply IHl. intros H. apply NI. now right.
Qed.
Lemma make_none : forall l, Forall built_band l -> l <> [] -> NoDup (map pb_full l) -> exists g, pg_make l None = Ok g /\ members g = l.
Proof.
  intros l HB HN ND. unfold pg_make. destruct l as [|p l0] eqn:EL; [congruence|]. rewrite <- EL in *. destruct (update_ok (collect l)) as (g & HU).
  { apply collect_from_Forall; auto. eapply Forall_impl; [|exact HB]. apply built_good. }
  exists g. split; auto. destruct (update_inv _ _ HU) as (E & _). unfold members. rewrite E, collect_nodup by auto. rewrite map_map. cbn [snd]. now rewrite map_id.
Qed.
(** What the filters remove from the list of names still to be found. *)
Lemma prune_rem_spec : forall fs (b : dict passband) kept rem x,
  In x (snd (fold_left (fun st fb =>
      let '(kept, remaining) := st in
      if smem (fst fb) fs then (kept ++ [fb], filter (fun x => negb (String.eqb x (fst fb))) remaining)
      else if smem (pb_filter (snd fb)) fs
           then (kept ++ [fb], filter (fun x => negb (String.eqb x (pb_filter (snd fb)))) remaining)
           else (kept, remaining)) b (kept, rem))) <->
  In x rem /\ forall fb, In fb b -> ~ (In (fst fb) fs /\ fst fb = x) /\ ~ (~ In (fst fb) fs /\ In (pb_filter (snd fb)) fs /\ pb_filter (snd fb) = x).
Proof.
  induction b as [|fb b IH]; intros kept rem x; cbn [fold_left].
  - cbn [snd]. split; [intros H; split; auto; intros ? []|tauto].
  - destruct (smem (fst fb) fs) eqn:E1; [|destruct (smem (pb_filter (snd fb)) fs) eqn:E2].
    + rewrite IH, filter_In, negb_true_iff, String.eqb_neq. apply smem_In in E1. split.
      * intros ((A & B) & C). split; auto. intros fb' [<-|H]; [|now apply C]. split; intros D; [destruct D as [_ D]; congruence|tauto].
      * intros (A & C). split; [split; auto|]. { intros ->. apply (proj1 (C fb (or_introl eq_refl))). auto. } intros fb' H. apply C. now right.
    + rewrite IH, filter_In, negb_true_iff, String.eqb_neq. assert (N1 : ~ In (fst fb) fs) by (intros H; apply smem_In in H; congruence). apply smem_In in E2. split.
      * intros ((A & B) & C). split; auto. intros fb' [<-|H]; [|now apply C]. split; intros D; [tauto|]. destruct D as (_ & _ & D). congruence.
      * intros (A & C). split; [split; auto|]. { intros ->. apply (proj2 (C fb (or_introl eq_refl))). auto. } intros fb' H. apply C. now right.
    + rewrite IH. assert (N1 : ~ In (fst fb) fs) by (intros H; apply smem_In in H; congruence). assert (N2 : ~ In (pb_filter (snd fb)) fs) by (intros H; apply smem_In in H; congruence). split.
      * intros (A & C). split; auto. intros fb' [<-|H]; [|now apply C]. tauto.
      * intros (A & C). split; auto. intros fb' H. apply C. now right.
Qed.
(** A group made with filters: when, and its members. *)
Lemma make_some : forall l fs, Forall built_band l -> l <> [] ->
  (exists g, pg_make l (Some fs) = Ok g) <->
  forall x, In x fs -> exists p, In p (map snd (collect l)) /\ (pb_full p = x \/ (~ In (pb_full p) fs /\ pb_filter p = x)).
Proof.
  intros l fs HB HN. unfold pg_make. destruct l as [|p0 l0] eqn:EL; [congruence|]. rewrite <- EL in *.
  destruct (collect_keyed l) as [_ K2]. rewrite Forall_forall in K2.
  pose proof (fun x => prune_rem_spec fs (collect l) [] fs x) as PR. fold (prune (collect l) fs) in PR. pose proof (prune_kept (collect l) fs) as PK.
  destruct (prune (collect l) fs) as [kept rem]. cbn [fst snd] in *. split.
  - intros (g & H) x HX. destruct rem as [|r rem]; [|discriminate]. cbn [length Nat.eqb negb] in H.
    assert (N : ~ forall fb, In fb (collect l) -> ~ (In (fst fb) fs /\ fst fb = x) /\ ~ (~ In (fst fb) fs /\ In (pb_filter (snd fb)) fs /\ pb_filter (snd fb) = x)).
    { intros Q. apply (PR x). auto. }
    assert (D : forall fb : string * passband, {(In (fst fb) fs /\ fst fb = x) \/ (~ In (fst fb) fs /\ In (pb_filter (snd fb)) fs /\ pb_filter (snd fb) = x)} +
                {~ ((In (fst fb) fs /\ fst fb = x) \/ (~ In (fst fb) fs /\ In (pb_filter (snd fb)) fs /\ pb_filter (snd fb) = x))}).
    { intros fb. destruct (in_dec string_dec (fst fb) fs), (string_dec (fst fb) x), (in_dec string_dec (pb_filter (snd fb)) fs), (string_dec (pb_filter (snd fb)) x); tauto. }
    destruct (Exists_dec _ (collect l) D) as [X|X].
    + apply Exists_exists in X. destruct X as (fb & HI & X). exists (snd fb). split; [apply in_map; auto|]. rewrite <- (K2 _ HI). tauto.
    + exfalso. apply N. intros fb HI. rewrite <- Forall_Exists_neg in X. rewrite Forall_forall in X. specialize (X fb HI). tauto.
  - intros HX. assert (R : rem = []).
    { destruct rem as [|r rem]; auto. exfalso. destruct (proj1 (PR r) (or_introl eq_refl)) as (A & B). destruct (HX r A) as (p & HP & C).
      apply in_map_iff in HP. destruct HP as (fb & <- & HI). destruct (B fb HI) as (B1 & B2). rewrite (K2 _ HI) in *. destruct C as [C|[C1 C2]]; [|rewrite C2 in *; tauto].
      rewrite C in *. tauto. }
    subst rem. cbn [length Nat.eqb negb]. apply update_ok. rewrite PK. apply Forall_forall. intros fb HI. apply filter_In in HI. destruct HI as [HI _].
    assert (G : Forall (fun fb => good_band (snd fb)) (collect l)).
    { apply collect_from_Forall; auto. eapply Forall_impl; [|exact HB]. apply built_good. }
    rewrite Forall_forall in G. now apply G.
Qed.
Lemma members_some : forall l fs g, pg_make l (Some fs) = Ok g -> Forall (fun p => In (pb_filter p) fs) l -> members g = map snd (collect l).
Proof.
  intros l fs g H F. destruct (make_bands _ _ _ H) as (E & _). unfold members. rewrite E. f_equal.
  assert (A : Forall (fun fb => In (pb_filter (snd fb)) fs) (collect l)) by (apply (collect_from_Forall (fun p => In (pb_filter p) fs)); auto).
  clear E. induction A as [|fb b A HA IH]; auto. cbn [filter]. unfold wanted at 1. apply smem_In in A. rewrite A, orb_true_r. f_equal. apply IH.
Qed.
Lemma members_none : forall l g, pg_make l None = Ok g -> members g = map snd (collect l).
Proof. intros l g H. destruct (make_bands _ _ _ H) as (E & _). unfold members. now rewrite E. Qed.
Lemma make_nil : forall fs g, pg_make [] fs <> Ok g.
Proof. intros fs g H. discriminate. Qed.
Lemma full_same : forall s a b, (s ++ "_" ++ a)%string = (s ++ "_" ++ b)%string -> a = b.
Proof. intros s a b H. induction s as [|c s IH]; cbn in H; injection H as H; auto. Qed.
Lemma length_append : forall s t, String.length (s ++ t)%string = String.length s + String.length t.
Proof. induction s as [|c s IH]; intros t; cbn; auto. Qed.
