(** C108: arrays written to files and read again, and SEDs loaded from files. *)
From Coq Require Import Reals String Ascii List Bool Arith Lia Lra.
From Verif Require Import Base BaseFacts RealBase DownloadModel PassbandFileModel SedModel TemplateModel SimpleModels ArrayFileModel.
Import ListNotations.
Open Scope string_scope.
Open Scope list_scope.
Open Scope nat_scope.

(** ** Specification *)
(** An array has as many entries as its shape says. *)
Definition whole (a : narr) : Prop := length (n_data a) = fold_right Nat.mul 1 (n_dims a).
(** The kind of file is decided by the end of its name, after the last dot. *)
Definition ends (p : path) (s : string) : Prop := suffix (file_name p) = s.
Definition binary (p : path) : Prop := ends p ".npy" \/ ends p ".npz".
Definition textual (p : path) : Prop := ends p ".csv" \/ ends p ".ecsv" \/ ends p ".txt".
(** The shape of an array that text keeps: axes of length 1 disappear, an array without entries becomes a 1-d array. *)
Definition text_shape (d : list nat) : list nat := if existsb (Nat.eqb 0) d then [0] else filter (fun k => negb (k =? 1)) d.
Definition flat (a : narr) : Prop := exists n, n_dims a = [n].
Definition matrix2 (a : narr) (r c : nat) : Prop := n_dims a = [r; c].
(** Only the file [p] changed. *)
Definition only (p : path) (fs fs' : afiles) : Prop := forall q, q <> p -> fs' q = fs q.

(** ** Helpers *)
Lemma aput_same : forall p x fs, aput p x fs p = Some x.
Proof. intros. unfold aput. now destruct (list_eq_dec string_dec p p). Qed.
Lemma aput_only : forall p x fs, only p fs (aput p x fs).
Proof. intros p x fs q H. unfold aput. now destruct (list_eq_dec string_dec q p). Qed.
Lemma chunks_rows : forall r c l, length l = r * c -> List.Forall (fun x => length x = c) (chunks r c l) /\ concat (chunks r c l) = l /\ length (chunks r c l) = r.
Proof.
  induction r as [|r IH]; intros c l H; simpl in *.
  - destruct l; [auto|discriminate].
  - destruct (IH c (skipn c l)) as (A & B & D). { rewrite skipn_length. lia. }
    split; [|split]; [constructor; auto; rewrite firstn_length; lia| |lia]. rewrite B. apply firstn_skipn.
Qed.
Lemma parse_rows : forall sep rows, List.Forall (fun x => x <> []) rows -> parse sep (map (Cells sep) rows) = Ok rows.
Proof.
  induction rows as [|row rows IH]; intros H; [reflexivity|]. inversion_clear H. cbn [map parse]. destruct row as [|x row]; [congruence|].
  rewrite Ascii.eqb_refl, orb_true_r, IH by auto. reflexivity.
Qed.
Lemma parse_blank : forall sep rows, List.Forall (fun x => x = []) rows -> parse sep (map (Cells sep) rows) = Ok [].
Proof. induction rows as [|row rows IH]; intros H; [reflexivity|]. inversion_clear H. subst row. cbn [map parse]. auto. Qed.
Lemma load_rows : forall sep c rows, List.Forall (fun x => length x = c) rows ->
  loadtxt sep (map (Cells sep) rows) = Ok (mkN (text_shape [length rows; c]) (concat rows)).
Proof.
  intros sep c rows H. unfold loadtxt. destruct c as [|c].
  - assert (E : List.Forall (fun x : list R => x = []) rows).
    { eapply Forall_impl; [|exact H]. intros x X. now destruct x. }
    rewrite (parse_blank _ _ E). cbn [bind]. unfold text_shape. cbn [existsb]. rewrite orb_true_r. f_equal. f_equal. clear H. symmetry.
    induction rows; [reflexivity|]. inversion_clear E. subst. simpl. auto.
  - rewrite parse_rows. 2:{ eapply Forall_impl; [|exact H]. intros [|? ?] X; [discriminate X|discriminate]. }
    cbn [bind]. destruct rows as [|row rows]; [reflexivity|]. inversion_clear H as [|? ? A B]. rewrite A.
    assert (F : forallb (fun x => length x =? S c) rows = true).
    { apply forallb_forall. rewrite Forall_forall in B. intros x X. apply Nat.eqb_eq. auto. }
    rewrite F. cbn [length]. f_equal.
Qed.
Lemma save_load : forall sep a, whole a -> (flat a \/ exists r c, matrix2 a r c) -> exists l,
  savetxt sep a = Ok l /\ loadtxt sep l = Ok (mkN (text_shape (n_dims a)) (n_data a)).
Proof.
  intros sep [d l] W [[n H]|(r & c & H)]; unfold matrix2 in *; cbn [n_dims n_data] in *; subst d; unfold savetxt; cbn [n_dims n_data]; eexists; (split; [reflexivity|]); unfold whole in W; cbn in W.
  - rewrite Nat.mul_1_r in W. replace (map (fun x => Cells sep [x]) l) with (map (Cells sep) (map (fun x => [x]) l)) by (rewrite map_map; reflexivity).
    rewrite (load_rows _ 1). 2:{ apply Forall_forall. intros x X. apply in_map_iff in X. now destruct X as (y & <- & _). }
    f_equal. f_equal.
    + rewrite map_length, W. unfold text_shape. cbn. rewrite orb_false_r. destruct n; reflexivity.
    + clear W. induction l; simpl; congruence.
  - rewrite Nat.mul_1_r in W. destruct (chunks_rows r c l W) as (A & B & D). rewrite (load_rows _ c) by auto. now rewrite B, D.
Qed.
(** The suffix tests of both functions. *)
Lemma text_kind : forall p, textual p -> exists sep, (forall fs a, write_numpy fs p a = write_text fs p sep a) /\
  (forall fs l, fs p = Some (AText l) -> read_numpy fs p = loadtxt sep l).
Proof.
  intros p T. unfold write_numpy, read_numpy. destruct T as [T|[T|T]]; unfold ends in T; rewrite T;
    [exists ","%char|exists ","%char|exists " "%char]; (split; [reflexivity|]); intros fs l H; rewrite H; reflexivity.
Qed.

(** ** Theorems *)
(** What read_numpy_data gives after write_numpy_data: the binary formats keep every array; the text formats keep the entries in their
    order, and the shape up to axes of length 1.  No other file changes. *)
Theorem C108_binary : forall fs p a, binary p -> exists fs',
  write_numpy fs p a = (Ok tt, fs') /\ read_numpy fs' p = Ok a /\ only p fs fs'.
Proof.
  intros fs p a [T|T]; unfold ends in T; unfold write_numpy, read_numpy; rewrite T; cbn [String.eqb Ascii.eqb Bool.eqb];
    (eexists; split; [reflexivity|split; [|apply aput_only]]); rewrite aput_same; reflexivity.
Qed.
Theorem C108_text : forall fs p a, textual p -> whole a -> (flat a \/ exists r c, matrix2 a r c) -> exists fs',
  write_numpy fs p a = (Ok tt, fs') /\ read_numpy fs' p = Ok (mkN (text_shape (n_dims a)) (n_data a)) /\ only p fs fs'.
Proof.
  intros fs p a T W S. destruct (text_kind p T) as (sep & A & B). destruct (save_load sep a W S) as (l & L1 & L2).
  exists (aput p (AText l) fs). rewrite A. unfold write_text. rewrite L1. split; [reflexivity|]. split; [|apply aput_only].
  rewrite (B _ l) by apply aput_same. exact L2.
Qed.
(** So reading gives back the array itself, in any of the five formats, for 1-d arrays of any length but one and for matrices with at
    least two rows and two columns. *)
Theorem C108_round_trip : forall fs p a, binary p \/ textual p -> whole a ->
  (exists n, n_dims a = [n] /\ n <> 1) \/ (exists r c, n_dims a = [r; c] /\ 2 <= r /\ 2 <= c) -> exists fs',
  write_numpy fs p a = (Ok tt, fs') /\ read_numpy fs' p = Ok a /\ only p fs fs'.
Proof.
  intros fs p a [T|T] W S; [now apply C108_binary|]. destruct (C108_text fs p a T W) as (fs' & A & B & C).
  { destruct S as [(n & E & _)|(r & c & E & _)]; [left; exists n; auto|right; exists r, c; auto]. }
  exists fs'. split; [auto|]. split; [|auto]. rewrite B. f_equal. destruct a as [d l]. cbn [n_dims n_data] in *. f_equal.
  destruct S as [(n & E & H)|(r & c & E & H1 & H2)]; subst d; unfold text_shape; cbn.
  - destruct n as [|[|n]]; [reflexivity|lia|reflexivity].
  - destruct r as [|[|r]]; try lia. destruct c as [|[|c]]; try lia. reflexivity.
Qed.
(** For all other 1-d arrays and matrices the text formats change the shape: exactly the documented claim "handles .csv, .ecsv and .txt"
    fails there. *)
Theorem C108_text_shape_refuted : forall fs p a, textual p -> whole a ->
  (n_dims a = [1]) \/ (exists r c, n_dims a = [r; c] /\ (r < 2 \/ c < 2)) -> exists fs' b,
  write_numpy fs p a = (Ok tt, fs') /\ read_numpy fs' p = Ok b /\ n_data b = n_data a /\ n_dims b <> n_dims a /\ length (n_dims b) < length (n_dims a).
Proof.
  intros fs p a T W S. destruct (C108_text fs p a T W) as (fs' & A & B & _).
  { destruct S as [E|(r & c & E & _)]; [left; exists 1; auto|right; exists r, c; auto]. }
  exists fs', (mkN (text_shape (n_dims a)) (n_data a)). split; [auto|]. split; [auto|]. split; [reflexivity|]. cbn [n_dims].
  assert (L : length (text_shape (n_dims a)) < length (n_dims a)).
  { destruct S as [E|(r & c & E & H)]; rewrite E; unfold text_shape; cbn; [lia|]. destruct r as [|[|r]]; cbn; try lia.
    - destruct c as [|[|c]]; cbn; lia.
    - destruct c as [|[|c]]; cbn; lia. }
  split; [intros E; rewrite E in L; lia|auto].
Qed.
(** Writing fails, with a ValueError, for unknown names (no file changes), and for text files of arrays that are neither 1-d nor 2-d - and
    then whatever the file held before is lost. *)
Theorem C108_write_unknown : forall fs p a, ~ binary p -> ~ textual p -> ~ ends p ".dat" -> write_numpy fs p a = (Err ValueError, fs).
Proof.
  intros fs p a NB NT ND. unfold write_numpy, binary, textual, ends in *.
  destruct (String.eqb_spec (suffix (file_name p)) ".npy") as [E|_]; [tauto|].
  destruct (String.eqb_spec (suffix (file_name p)) ".npz") as [E|_]; [tauto|].
  destruct (smem (suffix (file_name p)) [".csv"; ".ecsv"]) eqn:E1.
  { apply smem_In in E1. destruct E1 as [E|[E|[]]]; symmetry in E; tauto. }
  destruct (smem (suffix (file_name p)) [".txt"; ".dat"]) eqn:E2; [|reflexivity].
  apply smem_In in E2. destruct E2 as [E|[E|[]]]; symmetry in E; tauto.
Qed.
Theorem C108_write_lost_refuted : forall fs p a, textual p -> (n_dims a = [] \/ 3 <= length (n_dims a)) -> exists fs',
  write_numpy fs p a = (Err ValueError, fs') /\ read_numpy fs' p = Ok (mkN [0] []) /\ only p fs fs'.
Proof.
  intros fs p a T D. destruct (text_kind p T) as (sep & A & B). exists (aput p (AText []) fs). rewrite A. unfold write_text, savetxt.
  split; [|split; [|apply aput_only]].
  - destruct (n_dims a) as [|x [|y [|z d]]]; auto; destruct D as [D|D]; try discriminate D; simpl in D; lia.
  - rewrite (B _ []) by apply aput_same. reflexivity.
Qed.
(** Names ending in .dat can be written but never read. *)
Theorem C108_dat_refuted : forall fs p a, ends p ".dat" -> whole a -> (flat a \/ exists r c, matrix2 a r c) -> exists fs',
  write_numpy fs p a = (Ok tt, fs') /\ read_numpy fs' p = Err ValueError.
Proof.
  intros fs p a T W S. destruct (save_load " "%char a W S) as (l & L1 & _). unfold ends in T. unfold write_numpy, read_numpy. rewrite T.
  cbn [String.eqb Ascii.eqb Bool.eqb smem existsb orb]. unfold write_text. rewrite L1. eexists. split; [reflexivity|]. rewrite aput_same. reflexivity.
Qed.
(** Reading: a missing file is reported first; an existing file with an unknown ending is a ValueError. *)
Theorem C108_read_errors : forall fs p, (fs p = None -> read_numpy fs p = Err RuntimeError) /\
  (fs p <> None -> ~ binary p -> ~ textual p -> read_numpy fs p = Err ValueError).
Proof.
  intros fs p. unfold read_numpy. split; [intros ->; reflexivity|]. intros E NB NT. destruct (fs p) as [x|]; [|congruence].
  unfold binary, textual, ends in *.
  destruct (String.eqb_spec (suffix (file_name p)) ".npy") as [E0|_]; [tauto|].
  destruct (String.eqb_spec (suffix (file_name p)) ".npz") as [E0|_]; [tauto|]. cbv zeta.
  destruct (smem (suffix (file_name p)) [".csv"; ".ecsv"]) eqn:E1.
  { apply smem_In in E1. destruct E1 as [E0|[E0|[]]]; symmetry in E0; tauto. }
  destruct (smem (suffix (file_name p)) [".txt"]) eqn:E2; [|reflexivity].
  apply smem_In in E2. destruct E2 as [E0|[]]; symmetry in E0; tauto.
Qed.
(** Endings are compared as they are: capital letters make them unknown; so does a name that is nothing but the ending. *)
Theorem C108_names : forall fs d a, ends (d ++ ["x.csv"]) ".csv" /\ ends (d ++ ["a.b.txt"]) ".txt" /\
  write_numpy fs (d ++ ["x.CSV"]) a = (Err ValueError, fs) /\ write_numpy fs (d ++ [".csv"]) a = (Err ValueError, fs) /\
  write_numpy fs (d ++ ["x.csv.gz"]) a = (Err ValueError, fs).
Proof.
  intros fs d a. unfold ends, write_numpy, file_name. rewrite !last_last. repeat split; reflexivity.
Qed.

(** The separator follows the ending: a comma separated matrix with two or more columns, copied to a name ending in .txt, cannot be read,
    and neither can blank separated lines under .csv or .ecsv; a single column can be read under any of the three. *)
Theorem C108_copied : forall fs p q a r c, textual p -> textual q -> (ends p ".txt" <-> ~ ends q ".txt") -> whole a -> matrix2 a r c -> 1 <= r -> 2 <= c ->
  exists fs' x, write_numpy fs p a = (Ok tt, fs') /\ fs' p = Some x /\ read_numpy (aput q x fs') q = Err ValueError.
Proof.
  intros fs p q a r c TP TQ D W M Hr Hc. unfold matrix2 in M. unfold whole in W. rewrite M in W. cbn in W. rewrite Nat.mul_1_r in W.
  destruct (chunks_rows r c (n_data a) W) as (A & _ & L).
  assert (WR : forall sep s2, sep <> s2 -> loadtxt s2 (map (Cells sep) (chunks r c (n_data a))) = Err ValueError).
  { intros sep s2 N. destruct (chunks r c (n_data a)) as [|row rows]; [simpl in L; lia|]. inversion_clear A as [|? ? A1 _].
    unfold loadtxt. cbn [map parse]. destruct row as [|x [|y row]]; try (simpl in A1; lia). cbn [length Nat.eqb orb].
    destruct (Ascii.eqb_spec sep s2); [congruence|reflexivity]. }
  assert (SV : forall sep, savetxt sep a = Ok (map (Cells sep) (chunks r c (n_data a)))) by (intros; unfold savetxt; now rewrite M).
  assert (K : (ends p ".txt" /\ (ends q ".csv" \/ ends q ".ecsv")) \/ ((ends p ".csv" \/ ends p ".ecsv") /\ ends q ".txt")).
  { unfold ends in *. destruct (string_dec (suffix (file_name p)) ".txt") as [E|E].
    - left. split; [auto|]. destruct TQ as [Q|[Q|Q]]; auto. apply D in E. contradiction.
    - right. split; [destruct TP as [Q|[Q|Q]]; auto; contradiction|]. destruct TQ as [Q|[Q|Q]]; auto; exfalso; apply E; apply D; unfold ends in Q; rewrite Q; discriminate. }
  unfold write_numpy, read_numpy. unfold ends in K.
  destruct K as [[E [F|F]]|[[E|E] F]]; rewrite E, F; cbn [String.eqb Ascii.eqb Bool.eqb smem existsb orb]; unfold write_text; rewrite SV;
    eexists; eexists; (split; [reflexivity|split; [apply aput_same|]]); rewrite aput_same; apply WR; discriminate.
Qed.

(** ** SEDs *)
Lemma combine_fst_snd : forall (c : curve), combine (map fst c) (map snd c) = c.
Proof. induction c as [|[x y] c IH]; simpl; congruence. Qed.
(** The two-row array of an SED, and the table with one line per wavelength that its transpose is. *)
Definition two_rows (c : curve) : narr := mkN [2; length c] (map fst c ++ map snd c).
Definition two_columns (c : curve) : narr := mkN [length c; 2] (flat_map (fun p => [fst p; snd p]) c).
Lemma two_rows_whole : forall c, whole (two_rows c) /\ whole (two_columns c).
Proof.
  intros c. unfold whole, two_rows, two_columns. cbn. split; [rewrite app_length, !map_length; lia|].
  induction c; simpl in *; lia.
Qed.
Lemma points_rows : forall c, points (length c) (map fst c ++ map snd c) = c.
Proof.
  intros c. unfold points. replace (length c) with (length (map fst c)) at 1 2 by apply map_length.
  rewrite firstn_app, Nat.sub_diag, firstn_O, app_nil_r, firstn_all, skipn_app, Nat.sub_diag, skipn_all, skipn_O. apply combine_fst_snd.
Qed.
Lemma seq_nth_map : forall (l : list R) d, map (fun i => nth i l d) (seq 0 (length l)) = l.
Proof.
  intros l d. induction l as [|x l IH]; [reflexivity|]. cbn [length seq map nth]. f_equal. rewrite <- seq_shift, map_map. exact IH.
Qed.
Lemma columns_nth : forall c i, nth (i * 2 + 0) (flat_map (fun p => [fst p; snd p]) c) 0%R = nth i (map fst c) 0%R /\
  nth (i * 2 + 1) (flat_map (fun p => [fst p; snd p]) c) 0%R = nth i (map snd c) 0%R.
Proof.
  induction c as [|p c IH]; intros i; [destruct i; cbn; auto; destruct (i * 2 + 0), (i * 2 + 1); auto|]. destruct i as [|i]; [auto|].
  destruct (IH i) as [A B]. cbn [flat_map app map nth Nat.mul Nat.add]. auto.
Qed.
Lemma transpose_columns : forall c, transpose (two_columns c) = two_rows c.
Proof.
  intros c. unfold transpose, two_columns, two_rows. cbn [n_dims n_data seq flat_map]. rewrite app_nil_r. f_equal. f_equal.
  - rewrite <- (seq_nth_map (map fst c) 0%R), map_length. apply map_ext. intros i. apply columns_nth.
  - rewrite <- (seq_nth_map (map snd c) 0%R), map_length. apply map_ext. intros i. apply columns_nth.
Qed.
Lemma transpose_rows : forall c, transpose (two_rows c) = two_columns c.
Proof.
  intros c. unfold transpose, two_columns, two_rows. cbn [n_dims n_data]. f_equal.
  assert (G : forall k (l m : list R), length l = length m -> flat_map (fun j => map (fun i => nth (i * (k + length l) + j) (repeat 0%R k ++ l ++ repeat 0%R k ++ m) 0%R) (seq 0 2)) (seq k (length l))
     = flat_map (fun p => [fst p; snd p]) (combine l m)).
  { intros k l m E.
    assert (H : forall t (l1 l2 m1 m2 : list R), l = l1 ++ l2 -> m = m1 ++ m2 -> length l1 = t -> length m1 = t ->
      flat_map (fun j => map (fun i => nth (i * (k + length l) + j) (repeat 0%R k ++ l ++ repeat 0%R k ++ m) 0%R) (seq 0 2)) (seq (k + t) (length l2)) = flat_map (fun p => [fst p; snd p]) (combine l2 m2)).
    { intros t l1 l2. revert t l1. induction l2 as [|x l2 IH]; intros t l1 m1 m2 E1 E2 L1 L2; [reflexivity|].
      assert (LM : length m2 = S (length l2)). { pose proof E as E'. rewrite E1, E2, !app_length in E'. simpl in E'. lia. }
      destruct m2 as [|y m2]; [discriminate|]. cbn [length seq flat_map combine fst snd]. f_equal.
      - cbn [seq map]. rewrite Nat.mul_0_l, Nat.mul_1_l, Nat.add_0_l. f_equal; [|f_equal].
        + rewrite app_nth2 by (rewrite repeat_length; lia). rewrite repeat_length, app_nth1 by (rewrite E1, app_length; simpl; lia).
          rewrite E1, app_nth2 by lia. now replace (k + t - k - length l1) with 0 by lia.
        + rewrite app_nth2 by (rewrite repeat_length; lia). rewrite repeat_length, app_nth2 by lia.
          rewrite app_nth2 by (rewrite repeat_length; lia). rewrite repeat_length, E2, app_nth2 by lia.
          now replace (k + length l + (k + t) - k - length l - k - length m1) with 0 by lia.
      - replace (S (k + t)) with (k + S t) by lia. apply (IH (S t) (l1 ++ [x]) (m1 ++ [y])); rewrite ?app_length, <- ?app_assoc; simpl; auto; lia. }
    specialize (H 0 [] l [] m). rewrite Nat.add_0_r in H. apply H; auto. }
  specialize (G 0 (map fst c) (map snd c)). cbn [repeat app Nat.add] in G. rewrite combine_fst_snd, map_length in G. apply G. rewrite map_length. reflexivity.
Qed.
(** An SED - wavelengths and fluxes - saved with one line per wavelength, as the documentation of from_file asks, in any of the five
    formats, is loaded as the same model (or refused with the same error) as when its array is given to the constructor. *)
Theorem C108_sed : forall fs p c, binary p \/ textual p -> exists fs',
  write_numpy fs p (transpose (two_rows c)) = (Ok tt, fs') /\
  static_from_file fs' p = static_of_array (two_rows c).
Proof.
  intros fs p c T. rewrite transpose_rows. assert (SA : forall b, b = two_columns c -> match n_dims b with [_; 2] => static_of_array (transpose b) | _ => Err ValueError end = static_of_array (two_rows c)).
  { intros b ->. cbn [n_dims two_columns]. now rewrite transpose_columns. }
  destruct (le_lt_dec 2 (length c)) as [L|L].
  - destruct (C108_round_trip fs p (two_columns c) T (proj2 (two_rows_whole c))) as (fs' & A & B & _).
    { right. exists (length c), 2. auto. }
    exists fs'. split; [auto|]. unfold static_from_file. rewrite B. cbn [bind]. now apply SA.
  - assert (BAD : static_of_array (two_rows c) = Err ValueError).
    { unfold static_of_array, two_rows. cbn [n_dims n_data]. rewrite points_rows. unfold make_static_model. cbn [ar_rows Nat.eqb make_static fold_res].
      unfold check_sed. cbn [ar_rows ar_data Nat.eqb negb]. apply Nat.ltb_lt in L. rewrite L. reflexivity. }
    destruct T as [T|T].
    + destruct (C108_binary fs p (two_columns c) T) as (fs' & A & B & _). exists fs'. split; [auto|]. unfold static_from_file. rewrite B. cbn [bind]. now apply SA.
    + destruct (C108_text fs p (two_columns c) T (proj2 (two_rows_whole c))) as (fs' & A & B & _). { right. exists (length c), 2. reflexivity. }
      exists fs'. split; [auto|]. unfold static_from_file. rewrite B. cbn [bind]. rewrite BAD. destruct c as [|x [|y c]]; [reflexivity|reflexivity|simpl in L; lia].
Qed.
(** What the constructor makes of an SED: accepted, as it is, exactly if it has two or more strictly ascending wavelengths. *)
Theorem C108_sed_accepted : forall c,
  ((2 <= length c /\ increasing (xs c)) -> static_of_array (two_rows c) = Ok [c]) /\
  (~ (2 <= length c /\ increasing (xs c)) -> static_of_array (two_rows c) = Err ValueError).
Proof.
  intros c. unfold static_of_array, two_rows. cbn [n_dims n_data]. rewrite points_rows.
  destruct (C51_static_input (SMat (mkArr 2 c))) as [A B]; [intros; discriminate|]. cbn [passed map ar_data] in *. split.
  - intros [H1 H2]. apply A. split; [discriminate|]. constructor; [|constructor]. unfold valid_sed. cbn. auto.
  - intros H. apply B. intros [_ V]. inversion_clear V as [|? ? V1 _]. destruct V1 as (_ & V1 & V2). auto.
Qed.
(** A text file written by hand: comments anywhere, one line per wavelength with the separator of its kind. *)
Theorem C108_sed_by_hand : forall (fs : afiles) p ls c, (ends p ".txt" /\ fs p = Some (AText ls) /\ filter (fun l => match l with Comment => false | _ => true end) ls = map (fun q => Cells " " [fst q; snd q]) c) \/
    ((ends p ".csv" \/ ends p ".ecsv") /\ fs p = Some (AText ls) /\ filter (fun l => match l with Comment => false | _ => true end) ls = map (fun q => Cells "," [fst q; snd q]) c) ->
  2 <= length c -> increasing (xs c) -> static_from_file fs p = Ok [c].
Proof.
  intros fs p ls c H L I.
  assert (P : forall sep l, parse sep l = parse sep (filter (fun l => match l with Comment => false | _ => true end) l)).
  { intros sep. induction l as [|[|s row] l IH]; cbn [parse filter]; auto. destruct row; rewrite IH; reflexivity. }
  assert (G : exists sep, read_numpy fs p = loadtxt sep ls /\ filter (fun l => match l with Comment => false | _ => true end) ls = map (Cells sep) (map (fun q => [fst q; snd q]) c)).
  { destruct H as [(E & F & K)|([E|E] & F & K)]; unfold ends in E; unfold read_numpy; rewrite F, E; [exists " "%char|exists ","%char|exists ","%char];
      (split; [reflexivity|]); rewrite K, map_map; reflexivity. }
  destruct G as (sep & G1 & G2). unfold static_from_file. rewrite G1. unfold loadtxt. rewrite P, G2.
  pose proof (load_rows sep 2 (map (fun q => [fst q; snd q]) c)) as LR. unfold loadtxt in LR. rewrite LR.
  2:{ apply Forall_forall. intros x X. apply in_map_iff in X. now destruct X as (q & <- & _). }
  cbn [bind]. rewrite map_length. replace (concat (map (fun q => [fst q; snd q]) c)) with (flat_map (fun q : R * R => [fst q; snd q]) c) by apply flat_map_concat_map.
  assert (TS : text_shape [length c; 2] = [length c; 2]). { unfold text_shape. destruct c as [|x [|y c]]; simpl in L; try lia. reflexivity. }
  rewrite TS. cbn [n_dims]. change (mkN [length c; 2] (flat_map (fun q : R * R => [fst q; snd q]) c)) with (two_columns c). rewrite transpose_columns.
  now apply C108_sed_accepted.
Qed.
(** The same SED saved with wavelengths in one line and fluxes in the next (as the constructor takes it) is refused - unless it has just
    two wavelengths, when it is loaded as another SED. *)
Theorem C108_sed_rows_refuted : forall fs p c, binary p \/ textual p -> 3 <= length c -> exists fs',
  write_numpy fs p (two_rows c) = (Ok tt, fs') /\ static_from_file fs' p = Err ValueError.
Proof.
  intros fs p c T L. destruct (C108_round_trip fs p (two_rows c) T (proj1 (two_rows_whole c))) as (fs' & A & B & _).
  { right. exists 2, (length c). repeat split; auto. lia. }
  exists fs'. split; [auto|]. unfold static_from_file. rewrite B. cbn [bind n_dims two_rows]. destruct c as [|x [|y [|z c]]]; simpl in L; try lia. reflexivity.
Qed.
Theorem C108_sed_pair_refuted : forall fs p w1 w2 f1 f2, binary p \/ textual p -> (w1 < w2)%R -> (w1 < f1)%R -> exists fs',
  write_numpy fs p (two_rows [(w1, f1); (w2, f2)]) = (Ok tt, fs') /\ static_from_file fs' p = Ok [[(w1, w2); (f1, f2)]].
Proof.
  intros fs p w1 w2 f1 f2 T L1 L2. set (c := [(w1, f1); (w2, f2)]). destruct (C108_round_trip fs p (two_rows c) T (proj1 (two_rows_whole c))) as (fs' & A & B & _).
  { right. exists 2, 2. repeat split; auto. }
  assert (E : two_rows c = two_columns [(w1, w2); (f1, f2)]) by reflexivity. rewrite E in B.
  exists fs'. split; [auto|]. unfold static_from_file. rewrite B. cbn [bind]. cbn [n_dims two_columns length].
  rewrite transpose_columns. apply C108_sed_accepted. split; [auto|]. cbn. lra.
Qed.
(** A synphot spectrum at rest, at given wavelengths or its own: the SED has the converted flux at exactly these wavelengths; redshifted
    sources are refused, but blueshifted ones (z < 0) are taken as they are. *)
Theorem C108_synphot : forall njy s waves ws, (sy_z s <= 0)%R ->
  (waves = Some ws \/ (waves = None /\ sy_waves s = Some ws)) -> 2 <= length ws -> increasing ws ->
  static_from_synphot njy s waves = Ok [map (fun w => (w, njy w (sy_flux s w))) ws].
Proof.
  intros njy s waves ws Z H L I. unfold static_from_synphot. rewrite (proj2 (Rltb_false 0 (sy_z s))) by lra.
  replace (match waves with Some w => Ok w | None => match sy_waves s with Some w => Ok w | None => Err TypeError end end) with (Ok ws)
    by (destruct H as [->|[-> ->]]; reflexivity).
  cbn [bind]. set (c := map (fun w => (w, njy w (sy_flux s w))) ws).
  assert (F : map fst c = ws) by (unfold c; rewrite map_map, map_id; reflexivity).
  assert (G : map snd c = map (fun w => njy w (sy_flux s w)) ws) by (unfold c; rewrite map_map; reflexivity).
  rewrite <- G. rewrite <- F at 2. rewrite <- F at 1. rewrite map_length. apply (C108_sed_accepted c). unfold xs. rewrite F. split; [unfold c; rewrite map_length|]; auto.
Qed.
Theorem C108_synphot_refused : forall njy s waves, ((0 < sy_z s)%R -> static_from_synphot njy s waves = Err ValueError) /\
  ((sy_z s <= 0)%R -> waves = None -> sy_waves s = None -> static_from_synphot njy s waves = Err TypeError).
Proof.
  intros njy s waves. unfold static_from_synphot. split.
  - intros H. now rewrite (proj2 (Rltb_true 0 (sy_z s))).
  - intros H -> ->. now rewrite (proj2 (Rltb_false 0 (sy_z s))) by lra.
Qed.

(** ** A case *)
(** An SED of three points saved as text: the file's lines, and the model loaded from it; the flux halfway between two points. *)
Example C108_case :
  let c := [(1000, 10); (2000, 30); (3000, 20)]%R in
  let p := ["data"; "star.txt"] in
  exists fs', write_numpy (fun _ => None) p (transpose (two_rows c)) = (Ok tt, fs') /\
    fs' p = Some (AText [Cells " " [1000; 10]%R; Cells " " [2000; 30]%R; Cells " " [3000; 20]%R]) /\
    static_from_file fs' p = Ok [c] /\
    textual p /\ whole (two_rows c) /\ increasing (xs c).
Proof.
  cbv zeta. set (c := [(1000, 10); (2000, 30); (3000, 20)]%R). set (p := ["data"; "star.txt"]).
  assert (T : textual p) by (right; right; reflexivity). assert (I : increasing (xs c)) by (cbn; lra).
  assert (W : write_numpy (fun _ => None) p (transpose (two_rows c)) = (Ok tt, aput p (AText [Cells " " [1000; 10]%R; Cells " " [2000; 30]%R; Cells " " [3000; 20]%R]) (fun _ => None))).
  { rewrite transpose_rows. reflexivity. }
  eexists. split; [exact W|]. split; [apply aput_same|]. split.
  - destruct (C108_sed (fun _ => None) p c (or_intror T)) as (fs' & A & B). rewrite W in A. inversion A; subst fs'. rewrite B.
    apply C108_sed_accepted. split; [cbn; lia|auto].
  - repeat match goal with |- _ /\ _ => split end; auto; reflexivity.
Qed.
