(** Property C58: theorems about the LCLIB reader (src/lightcurvelynx/utils/io_utils.py). *)
From Coq Require Import String Ascii List Bool Arith Lia.
From Verif Require Import Base BaseFacts LclibModel LclibProps.
Import ListNotations.
Open Scope string_scope.
Open Scope list_scope.
Open Scope nat_scope.

Definition count (f : item -> bool) (l : list item) : nat := length (filter f l).
(** All FILTERS lines of the file say [fl], and no filter is named twice. *)
Definition one_filters (fl : string) (lines : list string) : Prop :=
  NoDup (chars fl) /\ forall v, In ("FILTERS", v) (items lines) -> v = fl.

Lemma items_plain : forall lines x, In x (items lines) -> fst x <> "COMMENT" /\ fst x <> "DOCUMENTATION".
Proof.
  intros lines x H. unfold items in H. apply filter_In in H. destruct H as [H1 H2]. split.
  - intros E. unfold has_key in H2. rewrite E in H2. discriminate.
  - clear H2. intros E. revert H1. generalize false, (pairs lines). intros b l. revert b.
    induction l as [|[k v] l IH]; intros b; simpl; [tauto|].
    destruct (String.eqb k "DOCUMENTATION") eqn:E1; [apply IH|].
    destruct (String.eqb k "DOCUMENTATION_END") eqn:E2.
    + intros [<-|H]; [|eapply IH; eauto]. simpl in E. subst. discriminate.
    + destruct b; [apply IH|]. intros [<-|H]; [|eapply IH; eauto]. simpl in E. subst. discriminate.
Qed.

Section Theorems.
Variable V : Type.
Variable parse : string -> option V.
Notation read := (read_lclib V parse).

Definition plain (fl : string) (p : list item) : Prop :=
  forall x, In x p -> fst x <> "COMMENT" /\ fst x <> "DOCUMENTATION" /\ (fst x = "FILTERS" -> snd x = fl).
Definition all_acceptable (fl : string) (l : list item) : Prop :=
  forall p x s, l = p ++ x :: s -> acceptable V parse fl p x.

Lemma snoc_split : forall A (p : list A) x p1 y p2, p ++ [x] = p1 ++ y :: p2 ->
  (p1 = p /\ y = x /\ p2 = []) \/ (exists q, p2 = q ++ [x] /\ p = p1 ++ y :: q).
Proof.
  intros A p x p1 y p2 H. destruct p2 as [|z p2 _] using rev_ind.
  - apply app_inj_tail in H. destruct H; subst. now left.
  - right. exists p2. rewrite app_comm_cons, app_assoc in H. apply app_inj_tail in H. destruct H; subst. auto.
Qed.

Lemma run_ok : forall fl, NoDup (chars fl) -> forall p, plain fl p ->
  match fold_res (step1 V parse) (l_init V) p with
  | Ok st => all_acceptable fl p /\ inv V parse fl p st /\
      length (l_curves V st) = count is_end p /\
      (forall p1 v p2, p = p1 ++ ("END_EVENT", v) :: p2 ->
         exists t, nth_error (l_curves V st) (count is_end p1) = Some t /\ table_after V parse fl p1 t)
  | Err e => ~ all_acceptable fl p /\
      (e = ValueError \/ e = KeyError /\ exists p1 x p2, p = p1 ++ x :: p2 /\ is_row x = true /\ after_last is_start p1 = None)
  end.
Proof.
  intros fl FN p. induction p as [|x p IH] using rev_ind; intros HP.
  - simpl. split; [intros p x s H; destruct p; discriminate|]. split; [|split; [reflexivity|intros p1 v p2 H; destruct p1; discriminate]].
    split; [reflexivity|]. split; [reflexivity|]. split; [reflexivity|]. split; [|reflexivity].
    split; [reflexivity|]. split; [reflexivity|]. split; reflexivity.
  - rewrite fold_res_snoc. assert (HP' : plain fl p) by (intros y Hy; apply HP; apply in_or_app; now left).
    specialize (IH HP'). destruct (fold_res (step1 V parse) (l_init V) p) as [st|e]; cbn [bind].
    + destruct IH as (A & I & L & T). destruct (HP x) as (P1 & P2 & P3); [apply in_or_app; right; now left|].
      assert (O := step_ok V parse fl FN p x st I P1 P2 P3). unfold outcome in O.
      destruct (step1 V parse st x) as [st'|e] eqn:ES.
      * destruct O as (O1 & O2 & O3). split; [|split; [exact O2|]].
        { intros q y s H. apply snoc_split in H. destruct H as [(-> & -> & ->)|(q' & -> & ->)]; auto. eapply A. reflexivity. }
        unfold count. rewrite filter_app, app_length. cbn [filter].
        destruct (is_end x) eqn:EE.
        -- destruct O3 as (t & E1 & E2). rewrite E1, app_length, L. split; [reflexivity|].
           intros p1 v p2 H. apply snoc_split in H. destruct H as [(-> & <- & ->)|(q' & -> & EP)].
           ++ exists t. split; auto. fold (count is_end p). rewrite <- L, nth_error_app2, Nat.sub_diag by lia. reflexivity.
           ++ destruct (T _ _ _ EP) as (t' & T1 & T2). exists t'. split; auto.
              rewrite nth_error_app1; auto. apply nth_error_Some. unfold count in T1. congruence.
        -- rewrite O3. split; [rewrite L, Nat.add_0_r; reflexivity|].
           intros p1 v p2 H. apply snoc_split in H. destruct H as [(-> & <- & ->)|(q' & -> & EP)]; [discriminate|].
           eapply T. exact EP.
      * destruct O as (O1 & O2). split.
        -- intros H. apply O1. eapply H. reflexivity.
        -- destruct O2 as [->|(-> & Q1 & Q2)]; [now left|]. right. split; auto. exists p, x, []. auto.
    + destruct IH as (A & B). split.
      * intros H. apply A. intros q y s E. eapply (H q y (s ++ [x])). rewrite E, <- app_assoc. reflexivity.
      * destruct B as [->|(-> & p1 & y & p2 & -> & Q1 & Q2)]; [now left|]. right. split; auto.
        exists p1, y, (p2 ++ [x]). rewrite <- app_assoc. auto.
Qed.

Lemma run_plain : forall fl lines, one_filters fl lines -> plain fl (items lines).
Proof.
  intros fl lines [_ H] x HI. destruct (items_plain lines x HI) as [H1 H2]. split; auto. split; auto.
  intros E. destruct x as [k v]. cbn in E. subst k. cbn. auto.
Qed.

(** A file is accepted exactly if each of its items is acceptable after those before it. *)
Theorem C58_accepts : forall fl lines, one_filters fl lines ->
  ((exists tables, read lines = Ok tables) <->
   forall p x s, items lines = p ++ x :: s -> acceptable V parse fl p x).
Proof.
  intros fl lines H. assert (R := run_ok fl (proj1 H) _ (run_plain fl lines H)). rewrite read_items.
  destruct (fold_res (step1 V parse) (l_init V) (items lines)) as [st|e].
  - split; [intros _; apply R|eauto].
  - split; [intros [t E]; discriminate|]. intros A. exfalso. now apply R.
Qed.

(** A file that is not accepted raises ValueError, except that a row before the first
    START_EVENT raises KeyError. *)
Theorem C58_errors : forall fl lines e, one_filters fl lines -> read lines = Err e ->
  e = ValueError \/
  e = KeyError /\ exists p1 x p2, items lines = p1 ++ x :: p2 /\ is_row x = true /\ existsb is_start p1 = false.
Proof.
  intros fl lines e H E. assert (R := run_ok fl (proj1 H) _ (run_plain fl lines H)). rewrite read_items in E.
  destruct (fold_res (step1 V parse) (l_init V) (items lines)) as [st|e']; [discriminate|]. inversion E; subst.
  destruct R as (_ & [->|(-> & p1 & x & p2 & Q1 & Q2 & Q3)]); [now left|]. right. split; auto.
  exists p1, x, p2. split; auto. split; auto. clear - Q3. induction p1 as [|a p1 IH]; simpl in *; auto.
  destruct (after_last is_start p1); [discriminate|]. destruct (is_start a); [discriminate|]. auto.
Qed.

(** One table per END_EVENT, in file order; its columns are made from the rows since the last
    START_EVENT, its metadata from all items so far. *)
Theorem C58_tables : forall fl lines tables, one_filters fl lines -> read lines = Ok tables ->
  length tables = count is_end (items lines) /\
  forall p v s, items lines = p ++ ("END_EVENT", v) :: s ->
    exists t, nth_error tables (count is_end p) = Some t /\
      match after_last is_start p with
      | None => tb_cols V t = []
      | Some body => holds_rows V parse fl body (tb_cols V t)
      end /\
      holds_meta p (tb_meta V t).
Proof.
  intros fl lines tables H E. assert (R := run_ok fl (proj1 H) _ (run_plain fl lines H)). rewrite read_items in E.
  destruct (fold_res (step1 V parse) (l_init V) (items lines)) as [st|e']; [|discriminate]. inversion E; subst.
  destruct R as (_ & _ & R1 & R2). split; auto.
Qed.

(** ** Files made of complete blocks *)
Record block := mkBlock { b_id : string; b_body : list item }.
Definition block_items (b : block) : list item :=
  ("START_EVENT", b_id b) :: b_body b ++ [("END_EVENT", b_id b)].
(** Nothing in the body starts or ends an event, declares filters or changes the id. *)
Definition quiet (l : list item) : Prop :=
  forall x, In x l -> has_key ["START_EVENT"; "END_EVENT"; "id"] x = false.

Lemma after_last_app : forall f l x l', f x = true -> existsb f l' = false -> after_last f (l ++ x :: l') = Some l'.
Proof.
  intros f l x l' H1 H2.
  assert (N : after_last f l' = None).
  { clear - H2. induction l' as [|a l IH]; simpl in *; auto. apply orb_false_iff in H2. destruct H2 as [-> H2]. now rewrite IH. }
  induction l as [|a l IH]; simpl; [now rewrite N, H1|]. now rewrite IH.
Qed.
Lemma last_value_app : forall f l x l', f x = true -> existsb f l' = false -> last_value f (l ++ x :: l') = Some (snd x).
Proof.
  intros f l x l' H1 H2. apply (last_value_none V parse "") in H2. induction l as [|a l IH]; simpl; [now rewrite H2, H1|]. now rewrite IH.
Qed.
Lemma quiet_none : forall l ks, quiet l -> (forall k, In k ks -> In k ["START_EVENT"; "END_EVENT"; "id"]) -> existsb (has_key ks) l = false.
Proof.
  intros l ks H HK. induction l as [|a l IH]; auto. cbn [existsb]. rewrite IH by (intros x Hx; apply H; now right).
  rewrite orb_false_r. specialize (H a (or_introl eq_refl)). unfold has_key in *.
  destruct (smem (fst a) ks) eqn:E; auto. apply smem_In in E. apply HK in E. apply smem_In in E. congruence.
Qed.

Lemma count_app : forall f l l', count f (l ++ l') = count f l + count f l'.
Proof. intros. unfold count. now rewrite filter_app, app_length. Qed.
Lemma count_quiet : forall l, quiet l -> count is_end l = 0.
Proof.
  intros l H. unfold count. assert (E := quiet_none l ["END_EVENT"] H). 
  induction l as [|a l IH]; auto. cbn [filter existsb] in *. unfold is_end at 1.
  destruct (has_key ["END_EVENT"] a) eqn:EA.
  - rewrite orb_true_l in E. discriminate E. intros k [<-|[]]. simpl. auto.
  - apply IH. intros x Hx; apply H; now right. intros HK. specialize (E HK). exact E.
Qed.
Lemma count_block : forall b, quiet (b_body b) -> count is_end (block_items b) = 1.
Proof.
  intros b H. unfold block_items. change (("START_EVENT", b_id b) :: b_body b ++ [("END_EVENT", b_id b)])
    with ([("START_EVENT", b_id b)] ++ b_body b ++ [("END_EVENT", b_id b)]). rewrite !count_app, (count_quiet (b_body b)) by auto. reflexivity.
Qed.

(** One table per block, in file order, with exactly the rows of the block and its id. *)
Theorem C58_blocks : forall fl lines tables header blocks trailer, one_filters fl lines ->
  items lines = header ++ flat_map block_items blocks ++ trailer ->
  quiet header -> quiet trailer -> (forall b, In b blocks -> quiet (b_body b)) ->
  read lines = Ok tables ->
  Forall2 (fun b t => holds_rows V parse fl (b_body b) (tb_cols V t) /\ dget "id" (tb_meta V t) = Some (MText (b_id b)))
    blocks tables.
Proof.
  intros fl lines tables header blocks trailer HO HI HH HT HB HR.
  destruct (C58_tables fl lines tables HO HR) as [HL HN].
  assert (CB : forall bs, (forall b, In b bs -> quiet (b_body b)) -> count is_end (flat_map block_items bs) = length bs).
  { induction bs as [|b bs IH]; intros H; auto. cbn [flat_map length]. rewrite count_app, count_block by (apply H; now left).
    rewrite IH; auto. intros b' Hb. apply H. now right. }
  rewrite HI, !count_app, count_quiet, CB, (count_quiet trailer) in HL by auto.
  assert (G : forall i b, nth_error blocks i = Some b -> exists t, nth_error tables i = Some t /\
     holds_rows V parse fl (b_body b) (tb_cols V t) /\ dget "id" (tb_meta V t) = Some (MText (b_id b))).
  { intros i b Hb. destruct (nth_error_split _ _ Hb) as (b1 & b2 & EB & EL).
    assert (E : items lines = (header ++ flat_map block_items b1 ++ ("START_EVENT", b_id b) :: b_body b) ++
                ("END_EVENT", b_id b) :: (flat_map block_items b2 ++ trailer)).
    { rewrite HI, EB, flat_map_app. cbn [flat_map]. unfold block_items at 2. rewrite <- !app_assoc. cbn [app].
      rewrite <- !app_assoc. cbn [app]. rewrite <- ?app_assoc. reflexivity. }
    destruct (HN _ _ _ E) as (t & T1 & T2 & T3). exists t.
    assert (QB : quiet (b_body b)) by (apply HB; rewrite EB; apply in_or_app; right; now left).
    assert (C : count is_end (header ++ flat_map block_items b1 ++ ("START_EVENT", b_id b) :: b_body b) = i).
    { change (("START_EVENT", b_id b) :: b_body b) with ([("START_EVENT", b_id b)] ++ b_body b).
      rewrite !count_app, count_quiet, CB, (count_quiet (b_body b)) by (auto; intros b' Hb'; apply HB; rewrite EB; apply in_or_app; now left).
      cbn. lia. }
    rewrite C in T1. split; auto.
    assert (A : after_last is_start (header ++ flat_map block_items b1 ++ ("START_EVENT", b_id b) :: b_body b) = Some (b_body b)).
    { rewrite app_assoc. apply after_last_app; auto. apply quiet_none; auto. intros k [<-|[]]. simpl. auto. }
    rewrite A in T2. split; auto. destruct T3 as (T3 & _). rewrite T3, app_assoc, last_value_app; auto.
    apply quiet_none; auto. intros k [<-|[<-|[]]]; simpl; auto. }
  clear - HL G. assert (L : length tables = length blocks) by lia. clear HL. revert tables G L.
  induction blocks as [|b bs IH]; intros [|t ts] G L; simpl in L; try lia; [constructor|].
  constructor.
  - destruct (G 0 b eq_refl) as (t' & E & Q). cbn in E. inversion E; subst. exact Q.
  - apply IH; [|lia]. intros i c Hc. apply (G (S i)). exact Hc.
Qed.

(** ** Lines that do not matter *)
Lemma pairs_app : forall a b, pairs (a ++ b) = pairs a ++ pairs b.
Proof. induction a as [|l a IH]; intros b; simpl; auto. destruct (lex l); simpl; now rewrite IH. Qed.
Lemma outside_app : forall a d b, outside d (a ++ b) = outside d a ++ outside (doc_after d a) b.
Proof.
  induction a as [|[k v] a IH]; intros d b; simpl; auto.
  destruct (String.eqb k "DOCUMENTATION"); [apply IH|]. destruct (String.eqb k "DOCUMENTATION_END"); [simpl; now rewrite IH|].
  destruct d; [apply IH|simpl; now rewrite IH].
Qed.
Lemma read_by_items : forall l1 l2, items l1 = items l2 -> read l1 = read l2.
Proof. intros l1 l2 H. rewrite !read_items. now rewrite H. Qed.

(** Lines without a key and value, comment lines and documentation blocks do not change the
    result. *)
Theorem C58_skipped : forall before line after,
  lex line = None \/ (exists v, lex line = Some ("COMMENT", v)) ->
  read (before ++ line :: after) = read (before ++ after).
Proof.
  intros b l a H. apply read_by_items. unfold items. rewrite !pairs_app. cbn [pairs].
  destruct H as [-> |[v ->]]; [reflexivity|]. rewrite !outside_app. cbn [outside String.eqb Ascii.eqb Bool.eqb].
  destruct (doc_after false (pairs b)); [reflexivity|]. rewrite !filter_app. reflexivity.
Qed.
Theorem C58_documentation : forall before d block e after vd ve,
  lex d = Some ("DOCUMENTATION", vd) -> lex e = Some ("DOCUMENTATION_END", ve) ->
  (forall l k v, In l block -> lex l = Some (k, v) -> k <> "DOCUMENTATION_END") ->
  read (before ++ d :: block ++ e :: after) = read (before ++ e :: after).
Proof.
  intros b d bl e a vd ve HD HE HB. apply read_by_items. unfold items. rewrite !pairs_app. cbn [pairs]. rewrite HD, pairs_app.
  cbn [pairs]. rewrite HE, !outside_app. f_equal. f_equal. cbn [outside String.eqb Ascii.eqb Bool.eqb].
  rewrite outside_app.
  assert (X : outside true (pairs bl) = [] /\ doc_after true (pairs bl) = true).
  { clear - HB. induction bl as [|l bl IH]; simpl; auto.
    assert (IH' : outside true (pairs bl) = [] /\ doc_after true (pairs bl) = true).
    { apply IH. intros l' k v H. apply (HB l'). now right. }
    destruct (lex l) as [[k v]|] eqn:EL; auto. simpl. specialize (HB l k v (or_introl eq_refl) EL).
    rewrite (proj2 (String.eqb_neq _ _) HB). destruct (String.eqb k "DOCUMENTATION"); auto. }
  destruct X as [-> ->]. reflexivity.
Qed.
(** An unfinished documentation block hides the rest of the file. *)
Theorem C58_open_documentation : forall before d rest vd,
  lex d = Some ("DOCUMENTATION", vd) ->
  (forall l k v, In l rest -> lex l = Some (k, v) -> k <> "DOCUMENTATION_END") ->
  read (before ++ d :: rest) = read before.
Proof.
  intros b d r vd HD HB. apply read_by_items. unfold items. rewrite !pairs_app. cbn [pairs]. rewrite HD, outside_app.
  cbn [outside String.eqb Ascii.eqb Bool.eqb].
  assert (X : outside true (pairs r) = []).
  { clear - HB. induction r as [|l bl IH]; simpl; auto.
    assert (IH' : outside true (pairs bl) = []).
    { apply IH. intros l' k v H. apply (HB l'). now right. }
    destruct (lex l) as [[k v]|] eqn:EL; auto. simpl. specialize (HB l k v (or_introl eq_refl) EL).
    rewrite (proj2 (String.eqb_neq _ _) HB). destruct (String.eqb k "DOCUMENTATION"); auto. }
  rewrite X, app_nil_r. reflexivity.
Qed.
End Theorems.

(** ** Reading a line *)
Definition blank (l : list ascii) : Prop := forall c, In c l -> is_space c = true.
(** Neither starts nor ends with white space. *)
Definition trimmed (l : list ascii) : Prop :=
  (forall c l', l = c :: l' -> is_space c = false) /\ (forall c l', l = l' ++ [c] -> is_space c = false).

Lemma lstrip_blank : forall b l, blank b -> lstrip_l (b ++ l) = lstrip_l l.
Proof.
  induction b as [|c b IH]; intros l H; simpl; auto. rewrite (H c (or_introl eq_refl)). apply IH. intros d Hd. apply H. now right.
Qed.
Lemma lstrip_fix : forall l, (forall c l', l = c :: l' -> is_space c = false) -> lstrip_l l = l.
Proof. intros [|c l] H; simpl; auto. now rewrite (H c l eq_refl). Qed.
Lemma blank_rev : forall b, blank b -> blank (rev b).
Proof. intros b H c Hc. apply H. now apply in_rev. Qed.
Lemma strip_pad : forall b1 l b2, blank b1 -> blank b2 -> trimmed l -> strip_l (b1 ++ l ++ b2) = l.
Proof.
  intros b1 l b2 H1 H2 [T1 T2]. unfold strip_l. rewrite lstrip_blank by auto.
  assert (D : l = [] \/ l <> []) by (destruct l; [now left|right; discriminate]). destruct D as [-> |NE].
  - simpl. replace (lstrip_l b2) with (@nil ascii); [reflexivity|].
    rewrite <- (app_nil_r b2), lstrip_blank by auto. reflexivity.
  - rewrite (lstrip_fix (l ++ b2)).
    2:{ intros d l' E. destruct l as [|c l]; [congruence|]. inversion E; subst. eapply T1; reflexivity. }
    rewrite rev_app_distr, lstrip_blank by (now apply blank_rev). rewrite lstrip_fix; [apply rev_involutive|].
    intros d l' E. apply (T2 d (rev l')). rewrite <- (rev_involutive l), E. reflexivity.
Qed.
Lemma before_none : forall c l, ~ In c l -> before_l c l = l.
Proof.
  induction l as [|d l IH]; intros H; simpl; auto. destruct (Ascii.eqb d c) eqn:E.
  - apply Ascii.eqb_eq in E. subst. exfalso. apply H. now left.
  - rewrite IH; auto. intros X. apply H. now right.
Qed.
Lemma before_some : forall c l l', ~ In c l -> before_l c (l ++ c :: l') = l.
Proof.
  induction l as [|d l IH]; intros l' H; simpl; [now rewrite Ascii.eqb_refl|]. destruct (Ascii.eqb d c) eqn:E.
  - apply Ascii.eqb_eq in E. subst. exfalso. apply H. now left.
  - rewrite IH; auto. intros X. apply H. now right.
Qed.
Lemma cut_some : forall c l l', ~ In c l -> cut_l c (l ++ c :: l') = Some (l, l').
Proof.
  induction l as [|d l IH]; intros l' H; simpl; [now rewrite Ascii.eqb_refl|]. destruct (Ascii.eqb d c) eqn:E.
  - apply Ascii.eqb_eq in E. subst. exfalso. apply H. now left.
  - rewrite IH; auto. intros X. apply H. now right.
Qed.
Lemma cut_none : forall c l, ~ In c l -> cut_l c l = None.
Proof.
  induction l as [|d l IH]; intros H; simpl; auto. destruct (Ascii.eqb d c) eqn:E.
  - apply Ascii.eqb_eq in E. subst. exfalso. apply H. now left.
  - rewrite IH; auto. intros X. apply H. now right.
Qed.

(** A comment: nothing, or a hash sign and any text. *)
Definition comment (l : list ascii) : Prop := l = [] \/ exists t, l = "#"%char :: t.
Lemma before_comment : forall l c, ~ In "#"%char l -> comment c -> before_l "#" (l ++ c) = l.
Proof. intros l c H [->|[t ->]]; [rewrite app_nil_r; now apply before_none|now apply before_some]. Qed.

(** The line "  KEY: value  # comment" gives the key and the value. *)
Theorem C58_line : forall b1 key b2 value b3 c, blank b1 -> blank b2 -> blank b3 -> comment c ->
  ~ In "#"%char key -> ~ In ":"%char key -> (forall d l', key = d :: l' -> is_space d = false) ->
  ~ In "#"%char value -> trimmed value ->
  lex (str (b1 ++ key ++ ":"%char :: b2 ++ value ++ b3 ++ c)) = Some (str key, str value).
Proof.
  intros b1 key b2 value b3 c B1 B2 B3 HC K1 K2 K3 V1 V2. unfold lex, str, chars. rewrite list_ascii_of_string_of_list_ascii.
  assert (NB : forall b, blank b -> ~ In "#"%char b) by (intros b H X; apply H in X; discriminate).
  replace (b1 ++ key ++ ":"%char :: b2 ++ value ++ b3 ++ c) with ((b1 ++ (key ++ ":"%char :: b2 ++ value) ++ b3) ++ c)
    by (rewrite <- !app_assoc; cbn [app]; rewrite <- !app_assoc; reflexivity).
  rewrite before_comment; auto.
  2:{ rewrite !in_app_iff. cbn [In]. rewrite !in_app_iff. intros X. destruct X as [X|[[X|[X|[X|X]]]|X]]; try (now apply (NB _ B1)); try (now apply (NB _ B2)); try (now apply (NB _ B3)); try tauto. }
  (* the value may be empty: then the white space before it is stripped as well *)
  assert (S : exists b, blank b /\ strip_l (b1 ++ (key ++ ":"%char :: b2 ++ value) ++ b3) = key ++ ":"%char :: b ++ value).
  { destruct value as [|v0 value0] eqn:EV.
    - exists []. split; [intros d []|]. rewrite app_nil_r.
      replace (b1 ++ (key ++ ":"%char :: b2) ++ b3) with (b1 ++ (key ++ [":"%char]) ++ (b2 ++ b3))
        by (rewrite <- !app_assoc; reflexivity).
      rewrite strip_pad; auto.
      + intros d Hd. apply in_app_or in Hd. destruct Hd; auto.
      + split.
        * intros d l' E. destruct key as [|k0 key]; simpl in E; inversion E; subst; [reflexivity|]. eapply K3; reflexivity.
        * intros d l' E. apply app_inj_tail in E. destruct E; subst. reflexivity.
    - exists b2. split; auto. apply strip_pad; auto. split.
      + intros d l' E. destruct key as [|k0 key]; simpl in E; inversion E; subst; [reflexivity|]. eapply K3; reflexivity.
      + intros d l' E. destruct V2 as [_ V2].
        destruct (@exists_last _ (v0 :: value0)) as (vi & vl & EL); [discriminate|]. rewrite EL in E.
        change (key ++ ":"%char :: b2 ++ vi ++ [vl]) with (key ++ (":"%char :: b2) ++ vi ++ [vl]) in E. rewrite !app_assoc in E. apply app_inj_tail in E.
        destruct E as [_ <-]. eapply V2. exact EL. }
  destruct S as (b & HB & ->). rewrite cut_some by auto. do 2 f_equal.
  replace (b ++ value) with (b ++ value ++ []) by (now rewrite app_nil_r). rewrite strip_pad; auto. intros d [].
Qed.
(** Lines without a colon outside of the comment have no key. *)
Theorem C58_no_key : forall text c, comment c -> ~ In ":"%char text -> ~ In "#"%char text -> lex (str (text ++ c)) = None.
Proof.
  intros text c HC H1 H2. unfold lex, str, chars. rewrite list_ascii_of_string_of_list_ascii, before_comment by auto.
  rewrite cut_none; auto. intros X. apply H1. unfold strip_l in X. apply in_rev in X.
  assert (L : forall l d, In d (lstrip_l l) -> In d l).
  { induction l as [|a l IH]; simpl; auto. intros d. destruct (is_space a); simpl; auto. }
  apply L, in_rev, L in X. exact X.
Qed.

(** The values of a row: words separated by white space. *)
Fixpoint spaced (ws : list (list ascii)) (gaps : list (list ascii)) : list ascii :=
  match ws, gaps with
  | [], _ => []
  | [w], _ => w
  | w :: ws', g :: gaps' => w ++ g ++ spaced ws' gaps'
  | w :: ws', [] => w
  end.
Definition word (w : list ascii) : Prop := w <> [] /\ forall c, In c w -> is_space c = false.
Definition gap (g : list ascii) : Prop := g <> [] /\ blank g.
Lemma words_word : forall w, word w -> words_l w = [w].
Proof.
  intros w [NE H]. induction w as [|c w IH]; [congruence|]. simpl. rewrite (H c (or_introl eq_refl)).
  destruct w as [|d w]; auto. rewrite (H d (or_intror (or_introl eq_refl))). rewrite IH; auto; [discriminate|].
  intros x Hx. apply H. now right.
Qed.
Lemma words_gap : forall w g l, word w -> gap g -> words_l (w ++ g ++ l) = w :: words_l l.
Proof.
  intros w g l [NE H] [GE B].
  assert (G : words_l (g ++ l) = words_l l).
  { clear GE. induction g as [|c g IH]; auto. cbn [app words_l]. rewrite (B c (or_introl eq_refl)). apply IH. intros x Hx. apply B. now right. }
  induction w as [|c w IH]; [congruence|]. cbn [app words_l]. rewrite (H c (or_introl eq_refl)).
  destruct w as [|d w].
  - destruct g as [|e g]; [congruence|]. cbn [app] in G |- *. rewrite (B e (or_introl eq_refl)). now rewrite G.
  - cbn [app] in IH |- *. rewrite (H d (or_intror (or_introl eq_refl))), IH; auto; [discriminate|]. intros x Hx. apply H. now right.
Qed.
Theorem C58_values : forall ws gaps, length ws = S (length gaps) -> Forall word ws -> Forall gap gaps ->
  split_ws (str (spaced ws gaps)) = map str ws.
Proof.
  intros ws gaps HL HW HG. unfold split_ws, str, chars. rewrite list_ascii_of_string_of_list_ascii. f_equal.
  revert ws HL HW. induction gaps as [|g gaps IH]; intros ws HL HW.
  - destruct ws as [|w [|w' ws]]; simpl in HL; try lia. inversion HW; subst. now apply words_word.
  - destruct ws as [|w [|w' ws]]; simpl in HL; try lia. inversion HW; subst. inversion HG; subst.
    change (spaced (w :: w' :: ws) (g :: gaps)) with (w ++ g ++ spaced (w' :: ws) gaps).
    rewrite words_gap by auto. f_equal. apply IH; auto.
Qed.

(** ** Examples and refuted claims *)
Definition digits (s : string) : option nat :=
  match chars s with
  | [c] => let n := nat_of_ascii c in if ((48 <=? n) && (n <=? 57))%nat then Some (n - 48) else None
  | _ => None
  end.
Definition sample_file : list string :=
  ["DOCUMENTATION:"; "  START_EVENT: 9"; "DOCUMENTATION_END:"; "FILTERS: gr  # two"; ""; "RECUR_CLASS: NON";
   "MODEL_PARNAMES: a,b"; "START_EVENT: 1"; "PARVAL: 5 6"; "T: 0 1 2"; "S: 1 3 4"; "END_EVENT: 1";
   "COMMENT: next"; "START_EVENT: 2"; "S: 7 8 9"; "END_EVENT: 2"].
Example sample_read : exists t1 t2, read_lclib nat digits sample_file = Ok [t1; t2] /\
  tb_cols nat t1 = [("type", [CText "T"; CText "S"]); ("time", [CNum 0; CNum 1]); ("g", [CNum 1; CNum 3]); ("r", [CNum 2; CNum 4])] /\
  tb_cols nat t2 = [("type", [CText "S"]); ("time", [CNum 7]); ("g", [CNum 8]); ("r", [CNum 9])] /\
  dget "id" (tb_meta nat t1) = Some (MText "1") /\ dget "id" (tb_meta nat t2) = Some (MText "2").
Proof. vm_compute. do 2 eexists. repeat split. Qed.
Example sample_meets : one_filters "gr" sample_file /\
  items sample_file = [("DOCUMENTATION_END", ""); ("FILTERS", "gr"); ("RECUR_CLASS", "NON"); ("MODEL_PARNAMES", "a,b")] ++
    flat_map block_items [mkBlock "1" [("PARVAL", "5 6"); ("T", "0 1 2"); ("S", "1 3 4")]; mkBlock "2" [("S", "7 8 9")]] ++ [].
Proof.
  split; [|reflexivity]. split.
  - repeat constructor; simpl; intuition discriminate.
  - intros v H. vm_compute in H. intuition congruence.
Qed.

(** "One table per event" fails when END_EVENT is repeated or has no START_EVENT: the last table
    is saved again, or an empty one. *)
Theorem C58_repeated_end_refuted : exists lines t1 t2 t3,
  read_lclib nat digits lines = Ok [t1; t2; t3] /\ count is_start (items lines) = 1 /\
  tb_cols nat t1 = [] /\ tb_cols nat t2 = tb_cols nat t3.
Proof.
  exists ["END_EVENT:"; "FILTERS: g"; "START_EVENT: 1"; "S: 0 1"; "END_EVENT: 1"; "END_EVENT: 1"].
  vm_compute. do 3 eexists. repeat split.
Qed.
(** Metadata of an event (here RECUR_CLASS and PARVAL) is also attached to the later events that
    do not give their own. *)
Theorem C58_meta_leak_refuted : exists lines t1 t2,
  read_lclib nat digits lines = Ok [t1; t2] /\
  items lines = [("FILTERS", "g"); ("MODEL_PARNAMES", "a")] ++
    flat_map block_items [mkBlock "1" [("RECUR_CLASS", "PERIODIC"); ("PARVAL", "5"); ("S", "0 1")]; mkBlock "2" [("S", "0 2")]] /\
  dget "RECUR_CLASS" (tb_meta nat t2) = Some (MText "PERIODIC") /\
  dget "PARVAL" (tb_meta nat t2) = Some (MPar [("a", "5")]).
Proof.
  exists ["FILTERS: g"; "MODEL_PARNAMES: a"; "START_EVENT: 1"; "RECUR_CLASS: PERIODIC"; "PARVAL: 5"; "S: 0 1"; "END_EVENT: 1";
          "START_EVENT: 2"; "S: 0 2"; "END_EVENT: 2"].
  vm_compute. do 2 eexists. repeat split.
Qed.
(** A later FILTERS line does not remove the columns of an earlier one: an event without the
    filter keeps the stale rows of that filter, and is refused when the row counts differ. *)
Theorem C58_stale_filters_refuted :
  (exists t1 t2, read_lclib nat digits
     ["FILTERS: g"; "START_EVENT: 1"; "S: 0 1"; "END_EVENT: 1"; "FILTERS: r"; "START_EVENT: 2"; "S: 5 6"; "END_EVENT: 2"] = Ok [t1; t2] /\
     dget "g" (tb_cols nat t2) = Some [CNum 1]) /\
  read_lclib nat digits
     ["FILTERS: g"; "START_EVENT: 1"; "S: 0 1"; "END_EVENT: 1"; "FILTERS: r"; "START_EVENT: 2"; "END_EVENT: 2"] = Err ValueError.
Proof. vm_compute. split; [do 2 eexists; repeat split|reflexivity]. Qed.
(** A filter named twice is refused as soon as an event with a row ends. *)
Theorem C58_duplicate_filter : 
  read_lclib nat digits ["FILTERS: gg"; "START_EVENT: 1"; "S: 0 1 2"; "END_EVENT: 1"] = Err ValueError.
Proof. reflexivity. Qed.
