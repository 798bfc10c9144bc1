(** Theorems added after seeded bugs survived: tables by URL (C89), conditions of a flow (C95). *)
From Coq Require Import String Ascii List Bool Arith ZArith Lia.
From Verif Require Import Base BaseFacts GraphStateModel NodeGraphModel ExternalModel DownloadModel DownloadProps.
Import ListNotations.
Open Scope list_scope.
Open Scope nat_scope.

(** The characters of a string. *)
Fixpoint chars (s : string) : list ascii := match s with EmptyString => [] | String c s' => c :: chars s' end.
Definition slash_free (s : string) : Prop := ~ In "/"%char (chars s).
Lemma slash_free_iff : forall s, slash_free s <-> has_slash s = false.
Proof.
  unfold slash_free. induction s as [|c s IH]; cbn [chars In has_slash]; [tauto|]. destruct (Ascii.eqb_spec c "/") as [->|N]; cbn [orb]; [|tauto].
  split; [intros H; exfalso; apply H; now left|discriminate].
Qed.
Lemma last_part_free : forall s, slash_free s -> last_part s = s.
Proof. intros [|c s] H; auto. apply slash_free_iff in H. cbn [last_part]. now rewrite H. Qed.
Lemma has_slash_app : forall p s, has_slash (p ++ String "/" s) = true.
Proof. induction p as [|c p IH]; intros s; auto. cbn [append has_slash]. rewrite IH. apply orb_true_r. Qed.
Lemma last_part_app : forall p s, slash_free s -> last_part (p ++ String "/" s) = s.
Proof.
  induction p as [|c p IH]; intros s H.
  - cbn [append last_part has_slash]. rewrite Ascii.eqb_refl. cbn [orb]. now apply last_part_free.
  - cbn [append last_part]. assert (X : has_slash (String c (p ++ String "/" s)) = true) by (cbn [has_slash]; rewrite has_slash_app; apply orb_true_r). rewrite X. now apply IH.
Qed.
(** The table of [prefix/name] is kept in the file [name] of the directory opsim below the data directory: it is put there by the first download, and read from
    there whenever it exists. *)
Theorem C89_url_file : forall base w prefix name c force, slash_free name -> name <> ""%string ->
  let url := (prefix ++ String "/" name)%string in let file := base ++ ["opsim"%string; name] in
  (exists_ w file = false -> w_remote w url = Some c -> exists w', from_url base w url force = (Ok c, w') /\ w_file w' file = Some c /\ forall q, q <> file -> w_file w' q = w_file w q) /\
  (w_file w file = Some c -> from_url base w url false = (Ok c, w)).
Proof.
  intros base w prefix name c force HS HN. cbv zeta.
  assert (UP : url_path base (prefix ++ String "/" name) = base ++ ["opsim"%string; name]).
  { unfold url_path. rewrite last_part_app by auto. apply String.eqb_neq in HN. now rewrite HN. }
  assert (HU : (prefix ++ String "/" name)%string <> ""%string) by (destruct prefix; discriminate).
  unfold from_url. rewrite UP. split.
  - intros HE HR. destruct (C89_missing w _ _ c HE HU HR force) as (w' & A & B & _ & D & _). exists w'. rewrite A, B. auto.
  - intros HF. rewrite C89_present by (unfold exists_; now rewrite HF). now rewrite HF.
Qed.
(** A download that fails is an error, and leaves no file behind. *)
Theorem C89_url_failure : forall base w url force, url <> ""%string -> exists_ w (url_path base url) = false -> w_remote w url = None ->
  exists e w', from_url base w url force = (Err e, w') /\ w_file w' = w_file w.
Proof.
  intros base w url force HU HE HR. destruct (C89_refused w (url_path base url) force HE) as (_ & _ & H). destruct (H url HU HR) as (w' & A & B).
  exists RuntimeError, w'. unfold from_url. rewrite A. auto.
Qed.
(** Every table that is returned is the content of the file. *)
Theorem C89_url_sound : forall base w url force c w', from_url base w url force = (Ok c, w') -> w_file w' (url_path base url) = Some c.
Proof.
  intros base w url force c w' H. unfold from_url in H. destruct (download w (url_path base url) (Some url) force) as [[[|]|e] w1]; try discriminate.
  apply pair_equal_spec in H. destruct H as [H <-]. destruct (w_file w1 (url_path base url)); [|discriminate]. now injection H as ->.
Qed.
Example C89_url_file_case : slash_free "baseline.db" /\ (exists w', from_url ["data"%string] (mkW (fun _ => None) (fun _ => false) (fun u => if String.eqb u "https://a/v1/baseline.db" then Some 5%Z else None) ["home"%string] ["cache"%string])
  "https://a/v1/baseline.db" false = (Ok 5%Z, w') /\ w_file w' ["data"; "opsim"; "baseline.db"]%string = Some 5%Z).
Proof. split; [cbv; intuition discriminate|]. eexists. split; reflexivity. Qed.
Print Assumptions C89_url_file.

(** ** C95: conditions made from numbers and arrays together (one sample with a vector among its parameters) *)
(** A table of conditions has a value in every row of every column: an array gives its entries, a number is repeated; there is an array among the parameters. *)
Theorem C95_conditions_rectangular : forall A (d : dict (value A)) df, data_frame d = Ok df ->
  map fst (f_cols df) = map fst d /\ (forall k xs, In (k, xs) (f_cols df) -> length xs = f_rows df) /\
  (forall i k v xs, nth_error d i = Some (k, v) -> nth_error (f_cols df) i = Some (k, xs) -> v = Arr (map Atom xs) \/ exists a, v = Atom a /\ xs = repeat a (f_rows df)) /\
  exists k l, In (k, Arr l) d /\ length l = f_rows df.
Proof.
  intros A d df H. unfold data_frame in H. destruct (common_length d) as [n|] eqn:EN; [|discriminate]. destruct (frame_cols n d) as [cs|] eqn:EC; [|discriminate]. injection H as <-. cbn [f_cols f_rows].
  assert (SC : forall l xs, scalars (A := A) l = Some xs -> l = map Atom xs).
  { unfold scalars. induction l as [|[a|l0] l IH]; intros xs E; cbn [fold_right] in E; [injection E as <-; reflexivity| |discriminate]. destruct (fold_right _ _ l) as [ys|]; [|discriminate]. injection E as <-. cbn [map]. f_equal. now apply IH. }
  assert (G : map fst cs = map fst d /\ (forall k xs, In (k, xs) cs -> length xs = n) /\
    forall i k v xs, nth_error d i = Some (k, v) -> nth_error cs i = Some (k, xs) -> v = Arr (map Atom xs) \/ exists a, v = Atom a /\ xs = repeat a n).
  { clear EN. revert cs EC. induction d as [|[k v] d IH]; intros cs EC; cbn [frame_cols] in EC.
    - injection EC as <-. split; [reflexivity|]. split; [intros k xs []|]. intros [|i]; discriminate.
    - destruct (match v with Atom a => Ok (repeat a n) | Arr l => if length l =? n then match scalars l with Some xs => Ok xs | None => Err ValueError end else Err ValueError end) as [c|] eqn:EV; [|discriminate].
      destruct (frame_cols n d) as [cs'|]; [|discriminate]. injection EC as <-. destruct (IH cs' eq_refl) as (I1 & I2 & I3).
      assert (VC : length c = n /\ (v = Arr (map Atom c) \/ exists a, v = Atom a /\ c = repeat a n)).
      { destruct v as [a|l]; [injection EV as <-; split; [apply repeat_length|right; eauto]|]. destruct (Nat.eqb_spec (length l) n) as [L|]; [|discriminate]. destruct (scalars l) as [xs|] eqn:ES; [|discriminate]. injection EV as <-.
        apply SC in ES. subst l. rewrite map_length in L. split; auto. }
      split; [cbn [map fst]; now rewrite I1|]. split.
      + intros k' xs [E|HI]; [injection E as <- <-; apply VC|now apply (I2 k')].
      + intros [|i] k' v' xs E1 E2; cbn [nth_error] in E1, E2; [injection E1 as <- <-; injection E2 as <-; apply VC|]. exact (I3 i k' v' xs E1 E2). }
  destruct G as (G1 & G2 & G3). split; auto. split; auto. split; auto.
  unfold common_length in EN. destruct (fold_right _ None d) as [m|] eqn:EF; [|discriminate]. injection EN as <-. clear -EF. induction d as [|[k v] d IH]; [discriminate|]. cbn [fold_right snd] in EF. destruct v as [a|l].
  - destruct (IH EF) as (k' & l & HI & L). exists k', l. split; [now right|auto].
  - injection EF as <-. exists k, l. split; [now left|auto].
Qed.
Example C95_conditions_case : data_frame [("z"%string, Atom 1%Z); ("m"%string, Arr [Atom 2%Z; Atom 3%Z])] = Ok (mkF 2 [("z"%string, [1; 1]%Z); ("m"%string, [2; 3]%Z)]).
Proof. reflexivity. Qed.
