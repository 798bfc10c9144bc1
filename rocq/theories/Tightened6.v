(** Theorems added after seeded bugs survived: survey classes and names in databases (C107), arrays that are no SEDs (C108). *)
From Coq Require Import Reals String Ascii List Bool Arith ZArith Lia.
From Verif Require Import Base BaseFacts RealBase TemplateModel ObsTableModel SurveyModel ObsFileModel DownloadModel PassbandFileModel ArrayFileModel.
Import ListNotations.
Open Scope list_scope.
Open Scope nat_scope.

(** The classes whose tables are saved and loaded are those of C72 and C73. *)
Theorem C107_classes : forall f colmap meta kw fp,
  kmake opsim_class f colmap meta kw fp = opsim_make f colmap meta kw fp /\
  forall mjd, kmake (ztf_class mjd) f colmap meta kw fp = ztf_make mjd f colmap meta kw fp.
Proof. intros. split; [reflexivity|]. intros mjd. reflexivity. Qed.

(** The same letter up to case: the characters are equal, or one is the letter number [k] of the alphabet in upper case (code 65 + k), the
    other the same in lower case (97 + k). *)
Definition same_letter (a b : ascii) : Prop :=
  a = b \/ exists k, k < 26 /\ ((nat_of_ascii a = 65 + k /\ nat_of_ascii b = 97 + k) \/ (nat_of_ascii a = 97 + k /\ nat_of_ascii b = 65 + k)).
Fixpoint same_word (s t : string) : Prop :=
  match s, t with
  | EmptyString, EmptyString => True
  | String a s', String b t' => same_letter a b /\ same_word s' t'
  | _, _ => False
  end.
Lemma code_lt : forall c, nat_of_ascii c < 256.
Proof. intros [[] [] [] [] [] [] [] []]; vm_compute; lia. Qed.
Lemma low_code : forall c, nat_of_ascii (low_char c) = if (65 <=? nat_of_ascii c) && (nat_of_ascii c <=? 90) then nat_of_ascii c + 32 else nat_of_ascii c.
Proof.
  intros c. unfold low_char. cbv zeta. destruct (_ && _) eqn:E; auto. apply andb_true_iff in E. destruct E as [E1 E2].
  apply Nat.leb_le in E1, E2. rewrite nat_ascii_embedding; lia.
Qed.
Lemma code_inj : forall a b, nat_of_ascii a = nat_of_ascii b -> a = b.
Proof. intros a b H. rewrite <- (ascii_nat_embedding a), <- (ascii_nat_embedding b). now rewrite H. Qed.
(** Two names are the same for the database exactly if they agree letter by letter up to case. *)
Theorem C107_case_insensitive : forall s t, low s = low t <-> same_word s t.
Proof.
  assert (CH : forall a b, low_char a = low_char b <-> same_letter a b).
  { intros a b. split.
    - intros H. apply (f_equal nat_of_ascii) in H. rewrite !low_code in H.
      destruct ((65 <=? nat_of_ascii a) && (nat_of_ascii a <=? 90)) eqn:EA; destruct ((65 <=? nat_of_ascii b) && (nat_of_ascii b <=? 90)) eqn:EB.
      + left. apply code_inj. lia.
      + apply andb_true_iff in EA. destruct EA as [E1 E2]. apply Nat.leb_le in E1, E2. right. exists (nat_of_ascii a - 65). split; [lia|]. left. lia.
      + apply andb_true_iff in EB. destruct EB as [E1 E2]. apply Nat.leb_le in E1, E2. right. exists (nat_of_ascii b - 65). split; [lia|]. right. lia.
      + left. now apply code_inj.
    - intros [-> | (k & K & H)]; auto. apply code_inj. rewrite !low_code.
      assert (X : forall x y, x = 65 + k -> y = 97 + k -> (if (65 <=? x) && (x <=? 90) then x + 32 else x) = (if (65 <=? y) && (y <=? 90) then y + 32 else y)).
      { intros x y -> ->. replace ((65 <=? 65 + k) && (65 + k <=? 90)) with true; [|symmetry; apply andb_true_iff; split; apply Nat.leb_le; lia].
        replace ((65 <=? 97 + k) && (97 + k <=? 90)) with false; [lia|]. symmetry. apply andb_false_iff. right. apply Nat.leb_gt. lia. }
      destruct H as [[H1 H2]|[H1 H2]]; [now apply X|symmetry; now apply X]. }
  induction s as [|a s IH]; intros [|b t]; cbn [low same_word]; try (split; [discriminate|tauto]); try tauto.
  rewrite <- CH, <- IH. split; [intros H; injection H; auto|intros [-> ->]; auto].
Qed.
Example C107_case_insensitive_case : low "Visits"%string = low "vISITS"%string /\ low "Visits"%string <> low "visit_"%string.
Proof. split; [reflexivity|discriminate]. Qed.

(** An array of another number of axes than two, or of another number of rows than two, is no SED: without axes a TypeError (it has no
    length), else a ValueError. *)
Theorem C108_not_sed : forall a, (forall n, n_dims a <> [2; n]) -> static_of_array a = Err (if (length (n_dims a) =? 0) then TypeError else ValueError).
Proof.
  intros [dims data] H. cbn [n_dims] in *. unfold static_of_array. cbn [n_dims]. destruct dims as [|d dims]; [reflexivity|].
  destruct d as [|[|[|d]]]; try reflexivity. destruct dims as [|n [|]]; try reflexivity. exfalso. now apply (H n).
Qed.
Example C108_not_sed_case : static_of_array (mkN [] [1%R]) = Err TypeError /\ static_of_array (mkN [3; 1] [1; 2; 3]%R) = Err ValueError.
Proof. split; apply C108_not_sed; intros n; discriminate. Qed.
