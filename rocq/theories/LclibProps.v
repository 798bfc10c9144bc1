(** Property C58: the LCLIB reader (src/lightcurvelynx/utils/io_utils.py). *)
From Coq Require Import String Ascii List Bool Arith Lia.
From Verif Require Import Base BaseFacts LclibModel.
Import ListNotations.
Open Scope string_scope.
Open Scope list_scope.
Open Scope nat_scope.

(** ** Vocabulary: what a file says *)
Definition item := (string * string)%type.
(** The key-value pairs of the lines. *)
Fixpoint pairs (lines : list string) : list item :=
  match lines with
  | [] => []
  | l :: lines' => match lex l with Some kv => kv :: pairs lines' | None => pairs lines' end
  end.
(** The pairs outside of documentation blocks ([doc]: inside of one at the start). *)
Fixpoint outside (doc : bool) (l : list item) : list item :=
  match l with
  | [] => []
  | (k, v) :: l' =>
      if String.eqb k "DOCUMENTATION" then outside true l'
      else if String.eqb k "DOCUMENTATION_END" then (k, v) :: outside false l'
      else if doc then outside true l' else (k, v) :: outside false l'
  end.
Definition has_key (ks : list string) (kv : item) : bool := smem (fst kv) ks.
(** The items of a file: the pairs that are neither documentation nor comments. *)
Definition items (lines : list string) : list item :=
  filter (fun kv => negb (has_key ["COMMENT"] kv)) (outside false (pairs lines)).

Definition is_start (kv : item) : bool := has_key ["START_EVENT"] kv.
Definition is_end (kv : item) : bool := has_key ["END_EVENT"] kv.
Definition is_row (kv : item) : bool := has_key ["S"; "T"] kv.
(** What follows the last item satisfying [f], if there is one. *)
Fixpoint after_last (f : item -> bool) (l : list item) : option (list item) :=
  match l with
  | [] => None
  | x :: l' => match after_last f l' with
               | Some b => Some b
               | None => if f x then Some l' else None
               end
  end.
(** The value of the last item satisfying [f]. *)
Fixpoint last_value (f : item -> bool) (l : list item) : option string :=
  match l with
  | [] => None
  | x :: l' => match last_value f l' with
               | Some v => Some v
               | None => if f x then Some (snd x) else None
               end
  end.
(** The id of the current event: the value of the last START_EVENT (or of a line "id: ..."). *)
Definition id_in_force (p : list item) : string :=
  match last_value (has_key ["START_EVENT"; "id"]) p with Some v => v | None => "" end.
Definition parnames (p : list item) : list string :=
  match last_value (has_key ["MODEL_PARNAMES"; "MODEL_PARAMETERS"]) p with Some v => split_on "," v | None => [] end.
Definition par_values (v : string) : list string :=
  if has_char "," (chars v) then split_on "," v else split_ws v.
(** The columns declared by FILTERS: the time and one per character. *)
Definition columns (filters : string) : list string := "time" :: map (fun c => String c EmptyString) (chars filters).
(** Keys with a meaning of their own; all others are metadata. *)
Definition reserved : list string :=
  ["DOCUMENTATION"; "COMMENT"; "FILTERS"; "END_EVENT"; "START_EVENT"; "S"; "T"; "MODEL_PARNAMES"; "MODEL_PARAMETERS"; "PARVAL"].

Section Props.
Variable V : Type.
Variable parse : string -> option V.
Notation lstate := (lstate V). Notation table := (table V). Notation cell := (cell V).
Notation handle := (handle V parse). Notation read_lclib := (read_lclib V parse).

(** ** Dropping documentation and comments *)
Definition nodoc (st : lstate) : lstate :=
  mkL V (l_cols V st) (l_curves V st) (l_meta V st) (l_model V st) (l_par V st) false.
Definition with_doc (d : bool) (st : lstate) : lstate :=
  mkL V (l_cols V st) (l_curves V st) (l_meta V st) (l_model V st) (l_par V st) d.
Fixpoint doc_after (doc : bool) (l : list item) : bool :=
  match l with
  | [] => doc
  | (k, _) :: l' => doc_after (if String.eqb k "DOCUMENTATION" then true
                               else if String.eqb k "DOCUMENTATION_END" then false else doc) l'
  end.
Definition kept (l : list item) := filter (fun kv => negb (has_key ["COMMENT"] kv)) l.
Definition step1 (st : lstate) (kv : item) := handle st (fst kv) (snd kv).

Lemma fold_pairs : forall lines (st : lstate), fold_res (l_step V parse) st lines = fold_res step1 st (pairs lines).
Proof.
  induction lines as [|l lines IH]; intros st; [reflexivity|].
  cbn [fold_res pairs]. unfold l_step at 1. destruct (lex l) as [[k v]|]; [|apply IH].
  cbn [fold_res]. unfold step1 at 1. simpl. destruct (handle st k v); auto.
Qed.

Lemma handle_doc : forall (st : lstate) k v,
  String.eqb k "DOCUMENTATION" = false ->
  (String.eqb k "DOCUMENTATION_END" = true \/ l_doc V st = false) ->
  handle st k v = handle (nodoc st) k v /\
  (forall st', handle st k v = Ok st' -> l_doc V st' = false).
Proof.
  intros st k v H1 H2. unfold handle, LclibModel.handle. rewrite H1.
  assert (D : (if String.eqb k "DOCUMENTATION_END" then false else l_doc V st) = false) by (destruct H2 as [-> | ->]; [auto|destruct (String.eqb k "DOCUMENTATION_END"); auto]).
  assert (D2 : (if String.eqb k "DOCUMENTATION_END" then false else l_doc V (nodoc st)) = false) by (simpl; destruct (String.eqb k "DOCUMENTATION_END"); auto).
  cbv zeta. rewrite D, D2. split; [reflexivity|]. simpl. intros st'.
  repeat match goal with
    | |- context [if ?c then _ else _] => destruct c; try discriminate
    | |- bind ?x _ = _ -> _ => destruct x; cbn [bind]; try discriminate
    end; intros X; inversion X; reflexivity.
Qed.

Lemma fold_items : forall l (st : lstate),
  fold_res step1 st l =
  match fold_res step1 (nodoc st) (kept (outside (l_doc V st) l)) with
  | Ok st' => Ok (with_doc (doc_after (l_doc V st) l) st')
  | Err e => Err e
  end.
Proof.
  induction l as [|[k v] l IH]; intros st.
  - simpl. destruct st; reflexivity.
  - cbn [fold_res outside doc_after]. unfold step1 at 1. cbn [fst snd].
    destruct (String.eqb k "DOCUMENTATION") eqn:E1.
    + assert (HS : handle st k v = Ok (with_doc true st)) by (unfold handle, LclibModel.handle; rewrite E1; reflexivity).
      rewrite HS, IH. reflexivity.
    + destruct (String.eqb k "DOCUMENTATION_END") eqn:E2.
      * assert (K : kept ((k, v) :: outside false l) = (k, v) :: kept (outside false l)).
        { unfold kept. simpl. unfold has_key. simpl. apply String.eqb_eq in E2. subst k. reflexivity. }
        rewrite K. cbn [fold_res]. unfold step1 at 2. cbn [fst snd].
        destruct (handle_doc st k v E1 (or_introl E2)) as [HD HD2]. rewrite <- HD.
        destruct (handle st k v) as [st'|e] eqn:EH; auto. rewrite IH. rewrite (HD2 st' eq_refl).
        replace (nodoc st') with st'; auto. specialize (HD2 st' eq_refl). destruct st'; simpl in *; subst; reflexivity.
      * destruct (l_doc V st) eqn:ED.
        -- assert (HS : handle st k v = Ok (with_doc true st)).
           { unfold handle, LclibModel.handle. rewrite E1, E2, ED. reflexivity. }
           rewrite HS, IH. reflexivity.
        -- destruct (handle_doc st k v E1 (or_intror ED)) as [HD HD2].
           assert (HK : has_key ["COMMENT"] (k, v) = String.eqb k "COMMENT") by (unfold has_key; simpl; apply orb_false_r).
           destruct (String.eqb k "COMMENT") eqn:EC.
           ++ assert (HS : handle st k v = Ok (with_doc false st)).
              { unfold handle, LclibModel.handle. rewrite E1, E2, ED, EC. reflexivity. }
              rewrite HS, IH. unfold kept. cbn [filter]. rewrite HK. reflexivity.
           ++ assert (K : kept ((k, v) :: outside false l) = (k, v) :: kept (outside false l)).
              { unfold kept. cbn [filter]. rewrite HK. reflexivity. }
              rewrite K. cbn [fold_res]. unfold step1 at 2. cbn [fst snd]. rewrite <- HD.
              destruct (handle st k v) as [st'|e] eqn:EH; auto. rewrite IH. rewrite (HD2 st' eq_refl).
              replace (nodoc st') with st'; auto. specialize (HD2 st' eq_refl). destruct st'; simpl in *; subst; reflexivity.
Qed.

Lemma read_items : forall lines,
  read_lclib lines = match fold_res step1 (l_init V) (items lines) with Ok st => Ok (l_curves V st) | Err e => Err e end.
Proof.
  intros lines. unfold read_lclib, LclibModel.read_lclib. rewrite fold_pairs, fold_items. simpl l_doc.
  change (nodoc (l_init V)) with (l_init V). change (kept (outside false (pairs lines))) with (items lines).
  destruct (fold_res step1 (l_init V) (items lines)); reflexivity.
Qed.

(** ** One item at a time *)
Lemma fold_res_snoc : forall S A (f : S -> A -> result S) l s x,
  fold_res f s (l ++ [x]) = bind (fold_res f s l) (fun s' => f s' x).
Proof.
  induction l as [|a l IH]; intros s x; simpl.
  - destruct (f s x); reflexivity.
  - destruct (f s a); auto.
Qed.
Lemma after_last_snoc : forall f l x, after_last f (l ++ [x]) =
  if f x then Some [] else match after_last f l with Some b => Some (b ++ [x]) | None => None end.
Proof.
  induction l as [|a l IH]; intros x; simpl; [destruct (f x); auto|].
  rewrite IH. destruct (f x); auto. destruct (after_last f l); auto. destruct (f a); auto.
Qed.
Lemma last_value_snoc : forall f l x, last_value f (l ++ [x]) = if f x then Some (snd x) else last_value f l.
Proof.
  induction l as [|a l IH]; intros x; simpl; [destruct (f x); auto|].
  rewrite IH. destruct (f x); auto.
Qed.

(** ** What a table holds *)
(** The cell of column number [k] made from a row. *)
Definition cell_of (k : nat) (row : item) (c : cell) : Prop :=
  exists w v, nth_error (split_ws (snd row)) k = Some w /\ parse w = Some v /\ c = CNum v.
(** The columns of a table made from the items [body] that follow START_EVENT: the types of the
    rows and, for each declared column, the numbers in that place of the rows, in order. *)
Definition holds_rows (filters : string) (body : list item) (cols : dict (list cell)) : Prop :=
  dkeys cols = "type" :: columns filters /\
  dget "type" cols = Some (map (fun r => CText (fst r)) (filter is_row body)) /\
  forall k c, nth_error (columns filters) k = Some c ->
    exists col, dget c cols = Some col /\ Forall2 (cell_of k) (filter is_row body) col.
(** The metadata after the items [p]: for each key the last value given to it. *)
Definition holds_meta (p : list item) (meta : dict mval) : Prop :=
  dget "id" meta = option_map MText (last_value (has_key ["START_EVENT"; "id"]) p) /\
  (forall k, ~ In k reserved -> k <> "id" -> dget k meta = option_map MText (last_value (has_key [k]) p)) /\
  (forall k, In k reserved -> k <> "PARVAL" -> dget k meta = None) /\
  match last_value (has_key ["PARVAL"]) p with
  | None => dget "PARVAL" meta = None
  | Some _ => exists p1 v p2, p = p1 ++ ("PARVAL", v) :: p2 /\ existsb (has_key ["PARVAL"]) p2 = false /\
                dget "PARVAL" meta = Some (MPar (zip_dict (parnames p1) (par_values v) []))
  end.
(** What an item needs in order to be accepted after the items [p]. *)
Definition acceptable (filters : string) (p : list item) (x : item) : Prop :=
  (is_end x = true -> snd x = id_in_force p) /\
  (is_start x = true -> exists v, In ("FILTERS", v) p) /\
  (is_row x = true -> after_last is_start p <> None /\
     length (split_ws (snd x)) = length (columns filters) /\
     (forall w, In w (split_ws (snd x)) -> exists v, parse w = Some v)) /\
  (has_key ["PARVAL"] x = true -> length (par_values (snd x)) = length (parnames p)).

Section Filters.
Variable fl : string.
Hypothesis FN : NoDup (chars fl).

Lemma columns_nodup : NoDup ("type" :: columns fl).
Proof.
  assert (X : forall s, (1 < String.length s) -> ~ In s (map (fun c => String c EmptyString) (chars fl))).
  { intros s HS HI. apply in_map_iff in HI. destruct HI as [c [<- _]]. simpl in HS. lia. }
  constructor.
  - unfold columns. intros [H|H]; [discriminate|]. revert H. apply X. simpl. lia.
  - unfold columns. constructor; [apply X; simpl; lia|]. clear X. induction (chars fl) as [|c l IH]; simpl; [constructor|].
    inversion FN; subst. constructor; auto. intros HI. apply in_map_iff in HI. destruct HI as [d [E HI]]. inversion E; subst. tauto.
Qed.

Definition put_cell := fun (m : dict (list cell)) (cv : string * string) =>
  match dget (fst cv) m, parse (snd cv) with
  | None, _ => Err KeyError
  | Some _, None => Err ValueError
  | Some _, Some v => append_to V (fst cv) (CNum v) m
  end.
Lemma put_cells : forall cols vals (m : dict (list cell)), NoDup cols -> length vals = length cols ->
  (forall c, In c cols -> exists col, dget c m = Some col) ->
  ((exists m', fold_res put_cell m (combine cols vals) = Ok m') <-> (forall w, In w vals -> exists v, parse w = Some v)) /\
  (forall m', fold_res put_cell m (combine cols vals) = Ok m' ->
     dkeys m' = dkeys m /\
     (forall k c w, nth_error cols k = Some c -> nth_error vals k = Some w ->
        exists col v, dget c m = Some col /\ parse w = Some v /\ dget c m' = Some (col ++ [CNum v])) /\
     (forall c, ~ In c cols -> dget c m' = dget c m)) /\
  (forall e, fold_res put_cell m (combine cols vals) = Err e -> e = ValueError).
Proof.
  induction cols as [|c cols IH]; intros [|w vals] m ND HL HM; simpl in HL; try lia.
  - simpl. split; [|split].
    + split; [intros _ w []|eauto].
    + intros m' H. inversion H; subst. split; auto. split; auto. intros k c w H1. destruct k; discriminate.
    + discriminate.
  - inversion ND as [|? ? NI ND']; subst. cbn [combine fold_res]. unfold put_cell at 1 3 5. cbn [fst snd].
    destruct (HM c (or_introl eq_refl)) as [col Hc]. rewrite Hc.
    destruct (parse w) as [v|] eqn:EP.
    2:{ split; [|split].
        - split; [intros [m' H]; discriminate|]. intros H. destruct (H w (or_introl eq_refl)). congruence.
        - discriminate.
        - intros e H. congruence. }
    unfold append_to. rewrite Hc. set (m1 := dset c (col ++ [CNum v]) m).
    assert (HM1 : forall d, In d cols -> exists col, dget d m1 = Some col).
    { intros d Hd. unfold m1. destruct (string_dec d c) as [-> |NE]; [rewrite dget_dset_same; eauto|].
      rewrite dget_dset_other by auto. apply HM. now right. }
    assert (HK : dkeys m1 = dkeys m).
    { unfold m1. rewrite dkeys_dset. unfold dmem. now rewrite Hc. }
    destruct (IH vals m1 ND' ltac:(lia) HM1) as (I1 & I2 & I3). split; [|split].
    + rewrite I1. split.
      * intros H u [<-|Hu]; eauto.
      * intros H u Hu. apply H. now right.
    + intros m' H. destruct (I2 m' H) as (J1 & J2 & J3). split; [congruence|]. split.
      * intros k d u H1 H2. destruct k as [|k]; simpl in H1, H2.
        -- inversion H1; inversion H2; subst. exists col, v. split; auto. split; auto.
           rewrite J3 by auto. apply dget_dset_same.
        -- destruct (J2 k d u H1 H2) as (col' & v' & Q1 & Q2 & Q3). exists col', v'. split; auto.
           unfold m1 in Q1. rewrite dget_dset_other in Q1; auto. intros ->. apply nth_error_In in H1. tauto.
      * intros d Hd. rewrite J3 by (intros X; apply Hd; now right). unfold m1. apply dget_dset_other.
        intros ->. apply Hd. now left.
    + apply I3.
Qed.
Lemma Forall2_snoc : forall X Y (P : X -> Y -> Prop) l l' x y, Forall2 P l l' -> P x y -> Forall2 P (l ++ [x]) (l' ++ [y]).
Proof. intros. apply Forall2_app; auto. Qed.

Lemma add_row_spec : forall body x (m : dict (list cell)), is_row x = true -> holds_rows fl body m ->
  ((exists m', add_row V parse (columns fl) (fst x) (snd x) m = Ok m') <->
     length (split_ws (snd x)) = length (columns fl) /\ (forall w, In w (split_ws (snd x)) -> exists v, parse w = Some v)) /\
  (forall m', add_row V parse (columns fl) (fst x) (snd x) m = Ok m' -> holds_rows fl (body ++ [x]) m') /\
  (forall e, add_row V parse (columns fl) (fst x) (snd x) m = Err e -> e = ValueError).
Proof.
  intros body x m HR (K & T & C). unfold add_row, append_to at 1 3 5. rewrite T. cbn [bind].
  set (m1 := dset "type" _ m). assert (ND := columns_nodup). inversion ND as [|? ? NT NC]; subst.
  assert (K1 : dkeys m1 = "type" :: columns fl). { unfold m1. rewrite dkeys_dset. unfold dmem. now rewrite T. }
  assert (G1 : forall c, c <> "type" -> dget c m1 = dget c m) by (intros; now apply dget_dset_other).
  assert (HM : forall c, In c (columns fl) -> exists col, dget c m1 = Some col).
  { intros c Hc. assert (c <> "type") by (intros ->; tauto). rewrite G1 by auto.
    apply In_nth_error in Hc. destruct Hc as [k Hk]. destruct (C k c Hk) as [col [Q _]]. eauto. }
  destruct (length (split_ws (snd x)) =? length (columns fl)) eqn:EL; cbn [negb].
  2:{ apply Nat.eqb_neq in EL. split; [|split].
      - split; [intros [m' H]; discriminate|tauto].
      - discriminate.
      - intros e H. congruence. }
  apply Nat.eqb_eq in EL. fold put_cell.
  destruct (put_cells (columns fl) (split_ws (snd x)) m1 NC EL HM) as (P1 & P2 & P3). split; [|split].
  - rewrite P1. tauto.
  - intros m' H. destruct (P2 m' H) as (Q1 & Q2 & Q3). unfold holds_rows.
    rewrite filter_app. cbn [filter]. rewrite HR. split; [congruence|]. split.
    + rewrite Q3 by auto. unfold m1. rewrite dget_dset_same, map_app. reflexivity.
    + intros k c Hk. destruct (C k c Hk) as [col [D1 D2]].
      destruct (nth_error (split_ws (snd x)) k) as [w|] eqn:EW.
      2:{ apply nth_error_None in EW. assert (k < length (columns fl)) by (apply nth_error_Some; congruence). lia. }
      destruct (Q2 k c w Hk EW) as (col' & v & R1 & R2 & R3).
      assert (c <> "type") by (intros ->; apply nth_error_In in Hk; tauto). rewrite G1 in R1 by auto.
      rewrite R1 in D1. inversion D1; subst. exists (col ++ [CNum v]). split; auto. apply Forall2_snoc; auto.
      exists w, v. auto.
  - apply P3.
Qed.

(** START_EVENT: empty columns. *)
Lemma start_spec : forall (m : dict (list cell)), m = [] \/ dkeys m = "type" :: columns fl ->
  holds_rows fl [] (fold_left (fun m c => dset c [] m) (columns fl) (dset "type" [] m)).
Proof.
  intros m HM. assert (ND := columns_nodup).
  assert (F : forall cols (m : dict (list cell)),
    (forall c, dget c (fold_left (fun m c => dset c [] m) cols m) = if smem c cols then Some [] else dget c m)).
  { induction cols as [|a cols IH]; intros m0 c; simpl; auto. rewrite IH. unfold smem in *. simpl.
    destruct (existsb (String.eqb c) cols); [now rewrite orb_true_r|]. rewrite orb_false_r, dget_dset. reflexivity. }
  assert (K : forall cols (m : dict (list cell)), NoDup (dkeys m ++ cols) ->
    dkeys (fold_left (fun m c => dset c [] m) cols m) = dkeys m ++ cols).
  { induction cols as [|a cols IH]; intros m0 H; simpl; [now rewrite app_nil_r|].
    rewrite IH; rewrite dkeys_dset.
    - destruct (dmem a m0) eqn:E; [|rewrite <- app_assoc; reflexivity].
      apply dmem_true in E. apply NoDup_remove_2 in H. exfalso. apply H. apply in_or_app. now left.
    - destruct (dmem a m0) eqn:E; [|rewrite <- app_assoc; exact H].
      apply dmem_true in E. apply NoDup_remove_2 in H. exfalso. apply H. apply in_or_app. now left. }
  assert (K2 : forall cols (m : dict (list cell)), (forall c, In c cols -> In c (dkeys m)) ->
    dkeys (fold_left (fun m c => dset c [] m) cols m) = dkeys m).
  { induction cols as [|a cols IH]; intros m0 H; simpl; auto. rewrite IH.
    - rewrite dkeys_dset. assert (X : dmem a m0 = true) by (apply dmem_true, H; now left). now rewrite X.
    - intros c Hc. apply In_dkeys_dset. right. apply H. now right. }
  inversion ND as [|? ? NT NC]; subst. split; [|split].
  - destruct HM as [->|HM].
    + rewrite K; [reflexivity|]. exact ND.
    + assert (X : dkeys (dset "type" [] m) = "type" :: columns fl).
      { rewrite dkeys_dset. assert (Y : dmem "type" m = true) by (apply dmem_true; rewrite HM; now left). now rewrite Y. }
      rewrite K2; auto. intros c Hc. rewrite X. now right.
  - rewrite F. replace (smem "type" (columns fl)) with false; [apply dget_dset_same|].
    symmetry. now apply smem_false.
  - intros k c Hk. exists []. split; [|constructor]. rewrite F.
    assert (X : smem c (columns fl) = true) by (apply smem_In; eapply nth_error_In; eauto). now rewrite X.
Qed.

Lemma rows_equal : forall body (m : dict (list cell)), holds_rows fl body m -> equal_lengths V m = true.
Proof.
  intros body m (K & T & C). assert (ND := columns_nodup). rewrite <- K in ND.
  assert (L : forall c col, In (c, col) m -> length col = length (filter is_row body)).
  { intros c col HI. apply In_dget in HI; auto. assert (IK : In c (dkeys m)) by (apply dget_keys; congruence).
    rewrite K in IK. destruct IK as [<-|IK].
    - rewrite T in HI. inversion HI. apply map_length.
    - apply In_nth_error in IK. destruct IK as [k Hk]. destruct (C k c Hk) as [col' [D1 D2]].
      rewrite D1 in HI. inversion HI; subst. clear - D2. induction D2; simpl; auto. }
  destruct m as [|[k0 c0] m]; auto. simpl. apply forallb_forall. intros [c col] HI. simpl.
  apply Nat.eqb_eq. rewrite (L c col) by (now right). symmetry. apply (L k0 c0). now left.
Qed.

(** ** The state after some items *)
Definition inv (p : list item) (st : lstate) : Prop :=
  l_doc V st = false /\
  l_cols V st = (if existsb (has_key ["FILTERS"]) p then columns fl else []) /\
  match after_last is_start p with
  | None => l_model V st = []
  | Some b => holds_rows fl b (l_model V st) /\ existsb (has_key ["FILTERS"]) p = true
  end /\
  holds_meta p (l_meta V st) /\
  l_par V st = parnames p.
(** The table made at END_EVENT after the items [p]. *)
Definition table_after (p : list item) (t : table) : Prop :=
  match after_last is_start p with
  | None => tb_cols V t = []
  | Some b => holds_rows fl b (tb_cols V t)
  end /\
  holds_meta p (tb_meta V t).

Lemma has_key_one : forall k x, has_key [k] x = String.eqb (fst x) k.
Proof. intros. unfold has_key. simpl. apply orb_false_r. Qed.
Lemma has_key_two : forall k k' x, has_key [k; k'] x = String.eqb (fst x) k || String.eqb (fst x) k'.
Proof. intros. unfold has_key. simpl. now rewrite orb_false_r. Qed.

(** An item that no metadata rule mentions leaves the metadata as it is. *)
Lemma meta_same : forall p x meta, holds_meta p meta -> In (fst x) reserved -> fst x <> "START_EVENT" -> fst x <> "PARVAL" ->
  holds_meta (p ++ [x]) meta.
Proof.
  intros p x meta (H1 & H2 & H3 & H4) HI N1 N2. split; [|split; [|split]].
  - rewrite last_value_snoc, has_key_two. rewrite (proj2 (String.eqb_neq _ _) N1). 
    assert (fst x <> "id") by (intros E; rewrite E in HI; simpl in HI; intuition discriminate).
    rewrite (proj2 (String.eqb_neq _ _) H). exact H1.
  - intros k Hk Hid. rewrite last_value_snoc, has_key_one.
    assert (fst x <> k) by (intros <-; tauto). rewrite (proj2 (String.eqb_neq _ _) H). auto.
  - exact H3.
  - rewrite last_value_snoc, has_key_one, (proj2 (String.eqb_neq _ _) N2).
    destruct (last_value (has_key ["PARVAL"]) p); auto.
    destruct H4 as (p1 & v & p2 & -> & E & G). exists p1, v, (p2 ++ [x]). split; [now rewrite <- app_assoc|].
    split; auto. rewrite existsb_app. apply orb_false_iff. split; [exact E|]. cbn [existsb]. rewrite has_key_one, (proj2 (String.eqb_neq _ _) N2). reflexivity.
Qed.

Lemma last_value_none : forall f l, last_value f l = None <-> existsb f l = false.
Proof.
  induction l as [|a l IH]; simpl; [tauto|]. destruct (last_value f l) eqn:E.
  - assert (existsb f l <> false) by (intros X; apply IH in X; discriminate). destruct (existsb f l); [|congruence].
    rewrite orb_true_r. split; discriminate.
  - rewrite (proj1 IH eq_refl), orb_false_r. destruct (f a); split; congruence.
Qed.

Definition outcome (p : list item) (x : item) (st : lstate) : Prop :=
  match step1 st x with
  | Ok st' => acceptable fl p x /\ inv (p ++ [x]) st' /\
      (if is_end x then exists t, l_curves V st' = l_curves V st ++ [t] /\ table_after p t
       else l_curves V st' = l_curves V st)
  | Err e => ~ acceptable fl p x /\ (e = ValueError \/ e = KeyError /\ is_row x = true /\ after_last is_start p = None)
  end.

Lemma id_is_spec : forall p meta v, holds_meta p meta -> id_is meta v = String.eqb v (id_in_force p).
Proof.
  intros p meta v (H1 & _). unfold id_is, id_in_force. rewrite H1. destruct (last_value _ p); reflexivity.
Qed.


Lemma body_same : forall p x (m : dict (list cell)),
  is_start x = false -> is_row x = false ->
  match after_last is_start p with
  | None => m = []
  | Some b => holds_rows fl b m /\ existsb (has_key ["FILTERS"]) p = true
  end ->
  match after_last is_start (p ++ [x]) with
  | None => m = []
  | Some b => holds_rows fl b m /\ existsb (has_key ["FILTERS"]) (p ++ [x]) = true
  end.
Proof.
  intros p x m H1 H2 M. rewrite after_last_snoc, H1. destruct (after_last is_start p) as [b|]; auto.
  destruct M as [M F]. split; [|rewrite existsb_app; apply orb_true_iff; now left].
  unfold holds_rows in *. rewrite filter_app. cbn [filter]. rewrite H2, app_nil_r. exact M.
Qed.
Lemma par_same : forall p x, has_key ["MODEL_PARNAMES"; "MODEL_PARAMETERS"] x = false -> parnames (p ++ [x]) = parnames p.
Proof. intros p x H. unfold parnames. now rewrite last_value_snoc, H. Qed.
Lemma cols_same : forall p x, has_key ["FILTERS"] x = false ->
  existsb (has_key ["FILTERS"]) (p ++ [x]) = existsb (has_key ["FILTERS"]) p.
Proof. intros p x H. rewrite existsb_app. cbn [existsb]. rewrite H. cbn. apply orb_false_r. Qed.
Lemma filters_seen : forall p, existsb (has_key ["FILTERS"]) p = true <-> exists v, In ("FILTERS", v) p.
Proof.
  intros p. rewrite existsb_exists. split.
  - intros [[k v] [HI HK]]. rewrite has_key_one in HK. apply String.eqb_eq in HK. cbn in HK. subst. eauto.
  - intros [v HI]. exists ("FILTERS", v). split; auto.
Qed.

Ltac fields := cbn [l_cols l_curves l_meta l_model l_par l_doc].
Ltac simple_acc := unfold acceptable, is_end, is_start, is_row, has_key; cbn; repeat split; discriminate.

Lemma step_ok : forall p x st, inv p st -> fst x <> "COMMENT" -> fst x <> "DOCUMENTATION" ->
  (fst x = "FILTERS" -> snd x = fl) -> outcome p x st.
Proof.
  intros p [k v] st (D & C & M & T & P) N1 N2 HF. cbn [fst snd] in *.
  unfold outcome, step1, LclibModel.handle. cbn [fst snd]. rewrite D.
  rewrite (proj2 (String.eqb_neq _ _) N1), (proj2 (String.eqb_neq _ _) N2).
  replace (if String.eqb k "DOCUMENTATION_END" then false else false) with false by (destruct (String.eqb k "DOCUMENTATION_END"); auto).
  cbv iota zeta. cbn [l_cols l_curves l_meta l_model l_par l_doc].
  destruct (string_dec k "FILTERS") as [-> |N3].
  { rewrite (HF eq_refl). cbn. split; [|split; [|reflexivity]].
    - simple_acc.
    - split; [reflexivity|]. fields. split; [|split; [|split]].
      + rewrite existsb_app. cbn. now rewrite orb_true_r.
      + apply body_same; auto.
      + apply meta_same; simpl; auto; discriminate.
      + rewrite P. symmetry. now apply par_same. }
  destruct (string_dec k "END_EVENT") as [-> |N4].
  { cbn. rewrite (id_is_spec p) by auto. destruct (String.eqb v (id_in_force p)) eqn:EI.
    - apply String.eqb_eq in EI.
      assert (EQ : make_table V (l_model V st) (l_meta V st) = Ok (mkTable V (l_model V st) (l_meta V st))).
      { unfold make_table. destruct (after_last is_start p) as [b|]; [|now rewrite M].
        now rewrite (rows_equal b) by apply M. }
      rewrite EQ. cbn. split; [|split].
      + unfold acceptable, is_end, is_start, is_row, has_key; cbn. split; [auto|]. repeat split; discriminate.
      + split; [reflexivity|]. fields. split; [|split; [|split]].
        * now rewrite cols_same.
        * apply body_same; auto.
        * apply meta_same; simpl; auto; discriminate.
        * rewrite P. symmetry. now apply par_same.
      + exists (mkTable V (l_model V st) (l_meta V st)). split; auto. split; auto. cbn.
        destruct (after_last is_start p) as [b|]; auto. apply M.
    - apply String.eqb_neq in EI. split; [|now left]. intros (A & _). apply EI, A. reflexivity. }
  destruct (string_dec k "START_EVENT") as [-> |N5].
  { cbn. destruct (existsb (has_key ["FILTERS"]) p) eqn:EF; rewrite C; cbn.
    - split; [|split; [|reflexivity]].
      + unfold acceptable, is_end, is_start, is_row, has_key; cbn. split; [discriminate|]. split.
        * intros _. now apply filters_seen.
        * repeat split; discriminate.
      + split; [reflexivity|]. fields. split; [|split; [|split]].
        * rewrite cols_same by reflexivity. now rewrite EF.
        * rewrite after_last_snoc. cbn [is_start has_key smem existsb fst String.eqb]. split; [|rewrite cols_same; auto].
          apply (start_spec (l_model V st)). destruct (after_last is_start p) as [b|]; [|now left]. right. apply M.
        * destruct T as (T1 & T2 & T3 & T4). split; [|split; [|split]].
          -- rewrite last_value_snoc. cbn. apply dget_dset_same.
          -- intros k Hk Hid. rewrite last_value_snoc, has_key_one. cbn [fst].
             assert (E : "START_EVENT" <> k) by (intros <-; apply Hk; simpl; tauto).
             rewrite (proj2 (String.eqb_neq _ _) E), dget_dset_other by auto. auto.
          -- intros k Hk Hp. rewrite dget_dset_other; auto. intros ->. simpl in Hk. intuition discriminate.
          -- rewrite last_value_snoc. cbn [has_key smem existsb fst String.eqb].
             rewrite dget_dset_other by discriminate. change (last_value (has_key ["PARVAL"]) p) with (last_value (has_key ["PARVAL"]) p) in T4.
             destruct (last_value (has_key ["PARVAL"]) p); auto. destruct T4 as (p1 & v' & p2 & -> & E & G).
             exists p1, v', (p2 ++ [("START_EVENT", v)]). split; [now rewrite <- app_assoc|]. split; auto.
             rewrite existsb_app. apply orb_false_iff. split; [exact E|reflexivity].
        * rewrite P. symmetry. now apply par_same.
    - split; [|now left]. intros (_ & A & _). assert (X := proj2 (filters_seen p) (A eq_refl)). congruence. }
  destruct (is_row (k, v)) eqn:ER.
  { assert (KE : String.eqb k "S" || String.eqb k "T" = true).
    { unfold is_row in ER. rewrite has_key_two in ER. exact ER. }
    assert (KR : In k reserved). { apply orb_true_iff in KE. destruct KE as [KE|KE]; apply String.eqb_eq in KE; subst k; simpl; tauto. }
    assert (N6 : k <> "PARVAL") by (intros ->; discriminate).
    assert (N7 : k <> "MODEL_PARNAMES") by (intros ->; discriminate).
    assert (N8 : k <> "MODEL_PARAMETERS") by (intros ->; discriminate).
    rewrite (proj2 (String.eqb_neq _ _) N3), (proj2 (String.eqb_neq _ _) N4), (proj2 (String.eqb_neq _ _) N5), KE.
    assert (IE : is_end (k, v) = false) by (unfold is_end; rewrite has_key_one; now apply String.eqb_neq).
    assert (IS : is_start (k, v) = false) by (unfold is_start; rewrite has_key_one; now apply String.eqb_neq).
    assert (IP : has_key ["PARVAL"] (k, v) = false) by (rewrite has_key_one; now apply String.eqb_neq).
    assert (IF : has_key ["FILTERS"] (k, v) = false) by (rewrite has_key_one; now apply String.eqb_neq).
    assert (IM : has_key ["MODEL_PARNAMES"; "MODEL_PARAMETERS"] (k, v) = false).
    { rewrite has_key_two. cbn [fst]. now rewrite (proj2 (String.eqb_neq _ _) N7), (proj2 (String.eqb_neq _ _) N8). }
    assert (AC : acceptable fl p (k, v) <-> after_last is_start p <> None /\
       length (split_ws v) = length (columns fl) /\ (forall w, In w (split_ws v) -> exists v, parse w = Some v)).
    { unfold acceptable. rewrite IE, IS, IP, ER. cbn [snd]. split.
      - intros (_ & _ & A & _). now apply A.
      - intros A. split; [discriminate|]. split; [discriminate|]. split; [auto|discriminate]. }
    rewrite IE. destruct (after_last is_start p) as [b|] eqn:EA.
    - destruct M as [M F]. rewrite F in C. rewrite C.
      destruct (add_row_spec b (k, v) (l_model V st) ER M) as (R1 & R2 & R3). cbn [fst snd] in R1, R2, R3.
      destruct (add_row V parse (columns fl) k v (l_model V st)) as [m'|e] eqn:EM; cbn [bind].
      + fields. split; [|split; [|reflexivity]].
        * apply AC. split; [congruence|]. apply R1. eauto.
        * split; [reflexivity|]. fields. split; [|split; [|split]].
          -- rewrite cols_same by auto. now rewrite F.
          -- rewrite after_last_snoc, IS, EA. split; [auto|rewrite cols_same; auto].
          -- apply meta_same; auto.
          -- rewrite P. symmetry. now apply par_same.
      + split; [|left; auto]. rewrite AC. intros (_ & A). apply R1 in A. destruct A. congruence.
    - rewrite M. cbn. split; [|right; auto]. rewrite AC. intros (A & _). congruence. }
  assert (N6 : k <> "S") by (intros ->; discriminate).
  assert (N7 : k <> "T") by (intros ->; discriminate).
  rewrite (proj2 (String.eqb_neq _ _) N3), (proj2 (String.eqb_neq _ _) N4), (proj2 (String.eqb_neq _ _) N5),
    (proj2 (String.eqb_neq _ _) N6), (proj2 (String.eqb_neq _ _) N7). cbn [orb].
  assert (IE : is_end (k, v) = false) by (unfold is_end; rewrite has_key_one; now apply String.eqb_neq).
  assert (IS : is_start (k, v) = false) by (unfold is_start; rewrite has_key_one; now apply String.eqb_neq).
  assert (IF : has_key ["FILTERS"] (k, v) = false) by (rewrite has_key_one; now apply String.eqb_neq).
  rewrite IE.
  destruct (has_key ["MODEL_PARNAMES"; "MODEL_PARAMETERS"] (k, v)) eqn:IM.
  { assert (KE := IM). rewrite has_key_two in KE. cbn [fst] in KE. rewrite KE. fields.
    assert (KR : In k reserved). { apply orb_true_iff in KE. destruct KE as [KE|KE]; apply String.eqb_eq in KE; subst k; simpl; tauto. }
    assert (N8 : k <> "PARVAL") by (intros ->; discriminate).
    assert (IP : has_key ["PARVAL"] (k, v) = false) by (rewrite has_key_one; now apply String.eqb_neq).
    split; [|split; [|reflexivity]].
    - unfold acceptable. rewrite IE, IS, IP, ER. repeat split; discriminate.
    - split; [reflexivity|]. fields. split; [|split; [|split]].
      + now rewrite cols_same.
      + apply body_same; auto.
      + apply meta_same; auto.
      + unfold parnames. rewrite last_value_snoc, IM. reflexivity. }
  assert (KE := IM). rewrite has_key_two in KE. cbn [fst] in KE. rewrite KE.
  destruct (string_dec k "PARVAL") as [-> |N8].
  { cbn [String.eqb Ascii.eqb Bool.eqb]. fold (par_values v). rewrite P.
    destruct (length (par_values v) =? length (parnames p)) eqn:EL; cbn [negb].
    - apply Nat.eqb_eq in EL. fields. split; [|split; [|reflexivity]].
      + unfold acceptable. rewrite IE, IS, ER. cbn [snd]. split; [discriminate|]. split; [discriminate|]. split; [discriminate|auto].
      + split; [reflexivity|]. fields. split; [|split; [|split]].
        * now rewrite cols_same.
        * apply body_same; auto.
        * destruct T as (T1 & T2 & T3 & T4). split; [|split; [|split]].
          -- rewrite last_value_snoc. cbn [has_key smem existsb fst String.eqb Ascii.eqb Bool.eqb orb].
             rewrite dget_dset_other by discriminate. exact T1.
          -- intros k Hk Hid. rewrite last_value_snoc, has_key_one. cbn [fst].
             assert (E : "PARVAL" <> k) by (intros <-; apply Hk; simpl; tauto).
             rewrite (proj2 (String.eqb_neq _ _) E), dget_dset_other by auto. auto.
          -- intros k Hk Hp. rewrite dget_dset_other; auto.
          -- rewrite last_value_snoc. cbn [has_key smem existsb fst String.eqb Ascii.eqb Bool.eqb orb].
             exists p, v, []. split; [reflexivity|]. split; [reflexivity|]. apply dget_dset_same.
        * symmetry. now apply par_same.
    - apply Nat.eqb_neq in EL. split; [|now left]. intros (_ & _ & _ & A). apply EL, A. reflexivity. }
  rewrite (proj2 (String.eqb_neq _ _) N8). fields.
  assert (IP : has_key ["PARVAL"] (k, v) = false) by (rewrite has_key_one; now apply String.eqb_neq).
  assert (NM : k <> "MODEL_PARNAMES" /\ k <> "MODEL_PARAMETERS").
  { apply orb_false_iff in KE. destruct KE as [K1 K2]. split; now apply String.eqb_neq. }
  assert (NR : ~ In k reserved) by (simpl; intuition congruence).
  split; [|split; [|reflexivity]].
  - unfold acceptable. rewrite IE, IS, IP, ER. repeat split; discriminate.
  - split; [reflexivity|]. fields. split; [|split; [|split]].
    + now rewrite cols_same.
    + apply body_same; auto.
    + destruct T as (T1 & T2 & T3 & T4). split; [|split; [|split]].
      * rewrite last_value_snoc, has_key_two. cbn [fst snd]. rewrite (proj2 (String.eqb_neq _ _) N5). cbn [orb].
        destruct (String.eqb k "id") eqn:EK.
        -- apply String.eqb_eq in EK. subst k. apply dget_dset_same.
        -- apply String.eqb_neq in EK. rewrite dget_dset_other by auto. exact T1.
      * intros k' Hk Hid. rewrite last_value_snoc, has_key_one. cbn [fst snd]. destruct (String.eqb k k') eqn:EK.
        -- apply String.eqb_eq in EK. subst k'. apply dget_dset_same.
        -- apply String.eqb_neq in EK. rewrite dget_dset_other by auto. auto.
      * intros k' Hk Hp. rewrite dget_dset_other; auto. intros ->. tauto.
      * rewrite last_value_snoc, IP. rewrite dget_dset_other by auto. 
        destruct (last_value (has_key ["PARVAL"]) p); auto. destruct T4 as (p1 & v' & p2 & -> & E & G).
        exists p1, v', (p2 ++ [(k, v)]). split; [now rewrite <- app_assoc|]. split; auto.
        rewrite existsb_app. apply orb_false_iff. split; [exact E|]. cbn [existsb]. now rewrite IP.
    + rewrite P. symmetry. now apply par_same.
Qed.
End Filters.
End Props.