(** Theorems added after mechanical edits survived (tools/automut.py), continued: broadcasting of a random node's parameters (C77). *)
From Coq Require Import ZArith String List Bool Arith Lia.
From Verif Require Import Base GraphStateModel NpRandomModel NpRandomProps.
Import ListNotations.
Open Scope list_scope.
Open Scope nat_scope.

(** ** C77: one sample, array parameters *)
(** The size of an array in the [k]-th dimension counted from the last one; missing dimensions count as 1. *)
Definition dim_end (sh : list nat) (k : nat) : nat := nth k (rev sh) 1.
(** numpy's rule: as many dimensions as the longest shape; in every dimension each shape has the size 1 or the common size, which some shape has (or it is 1). *)
Definition common_shape (shs : list (list nat)) (out : list nat) : Prop :=
  length out = list_max (map (@length nat) shs) /\
  forall k, (forall sh, In sh shs -> dim_end sh k = 1 \/ dim_end sh k = dim_end out k) /\ (dim_end out k = 1 \/ exists sh, In sh shs /\ dim_end sh k = dim_end out k).

Definition J (shs : list (list nat)) (r : list nat) : Prop :=
  length r = list_max (map (@length nat) shs) /\
  forall k, (forall s, In s shs -> nth k s 1 = 1 \/ nth k s 1 = nth k r 1) /\ (nth k r 1 = 1 \/ exists s, In s shs /\ nth k s 1 = nth k r 1).
Lemma J_common : forall shs out, common_shape shs out <-> J (map (@rev nat) shs) (rev out).
Proof.
  intros shs out. unfold common_shape, J, dim_end. rewrite rev_length, map_map. erewrite (map_ext (fun x => length (rev x))) by (intros; apply rev_length).
  split; intros [A B]; split; auto; intros k; destruct (B k) as [B1 B2]; split.
  - intros s Hs. apply in_map_iff in Hs as (t & <- & Ht). auto.
  - destruct B2 as [B2|(s & Hs & E)]; [auto|]. right. exists (rev s). split; auto. now apply in_map.
  - intros s Hs. apply B1. now apply in_map.
  - destruct B2 as [B2|(s & Hs & E)]; [auto|]. apply in_map_iff in Hs as (t & <- & Ht). right. eauto.
Qed.
Lemma J_unique : forall shs r r', J shs r -> J shs r' -> r = r'.
Proof.
  intros shs r r' [A1 A2] [B1 B2]. apply (nth_ext _ _ 1 1); [congruence|]. intros k _. destruct (A2 k) as [A3 A4], (B2 k) as [B3 B4].
  destruct A4 as [A4|(s & Hs & E)].
  - destruct B4 as [B4|(s & Hs & E)]; [congruence|]. destruct (A3 s Hs); congruence.
  - destruct (B3 s Hs) as [F|F]; [|congruence]. destruct B4 as [B4|(s' & Hs' & E')]; [congruence|]. destruct (A3 s' Hs'); congruence.
Qed.
Lemma J2_tail : forall x y a b z r, J [x :: a; y :: b] (z :: r) -> J [a; b] r.
Proof.
  intros x y a b z r [A B]. split; [cbn in *; lia|]. intros k. destruct (B (S k)) as [B1 B2]. split.
  - intros s [<-|[<-|[]]]; [apply (B1 (x :: a)); cbn; auto|apply (B1 (y :: b)); cbn; auto].
  - destruct B2 as [B2|(s & [<-|[<-|[]]] & E)]; [left; exact B2|right; exists a; cbn; auto|right; exists b; cbn; auto].
Qed.
Lemma J2_sym : forall a b r, J [a; b] r -> J [b; a] r.
Proof. intros a b r [A B]. split; [cbn in *; lia|]. intros k. destruct (B k) as [B1 B2]. split; [intros s [<-|[<-|[]]]; apply B1; cbn; auto|]. destruct B2 as [B2|(s & [<-|[<-|[]]] & E)]; [auto| |]; right; eexists; (split; [|exact E]); cbn; auto. Qed.
Lemma nth_nil_1 : forall k, nth k (@nil nat) 1 = 1. Proof. destruct k; reflexivity. Qed.
Lemma J2_nil : forall b, J [[]; b] b.
Proof. intros b. split; [cbn; lia|]. intros k. split; [intros s [<-|[<-|[]]]; [left; apply nth_nil_1|auto]|right; exists b; cbn; auto]. Qed.
Lemma join_rev_some : forall a b r, join_rev a b = Some r -> J [a; b] r.
Proof.
  induction a as [|x a IH]; intros b r H; cbn in H; [injection H as <-; apply J2_nil|]. destruct b as [|y b]; [injection H as <-; apply J2_sym, J2_nil|].
  destruct (join_rev a b) as [r0|] eqn:E; [|discriminate]. specialize (IH b r0 E). destruct IH as [A B].
  assert (G : forall z, (x = 1 \/ x = z) -> (y = 1 \/ y = z) -> (z = 1 \/ x = z \/ y = z) -> J [x :: a; y :: b] (z :: r0)).
  { intros z X Y Z. split; [cbn in *; lia|]. intros k. destruct k as [|k].
    - cbn [nth]. split; [intros s [<-|[<-|[]]]; cbn; auto|]. destruct Z as [Z|[Z|Z]]; [auto|right; exists (x :: a); cbn; auto|right; exists (y :: b); cbn; auto].
    - cbn [nth]. destruct (B k) as [B1 B2]. split; [intros s [<-|[<-|[]]]; cbn [nth]; apply B1; cbn; auto|]. destruct B2 as [B2|(s & [<-|[<-|[]]] & F)]; [auto|right; exists (x :: a); cbn; auto|right; exists (y :: b); cbn; auto]. }
  destruct (Nat.eqb_spec x y) as [->|N]; [injection H as <-; apply G; auto|]. destruct (Nat.eqb_spec x 1) as [->|N1]; [injection H as <-; apply G; auto|].
  destruct (Nat.eqb_spec y 1) as [->|N2]; [injection H as <-; apply G; auto|discriminate].
Qed.
Lemma join_rev_none : forall a b, join_rev a b = None -> forall r, ~ J [a; b] r.
Proof.
  induction a as [|x a IH]; intros b H r HJ; cbn in H; [discriminate|]. destruct b as [|y b]; [discriminate|].
  destruct r as [|z r]; [destruct HJ as [A _]; cbn in A; lia|].
  destruct (join_rev a b) as [r0|] eqn:E; [|exact (IH b E r (J2_tail _ _ _ _ _ _ HJ))].
  destruct HJ as [_ B]. destruct (B 0) as [B1 _]. assert (X := B1 (x :: a) (or_introl eq_refl)). assert (Y := B1 (y :: b) (or_intror (or_introl eq_refl))). cbn in X, Y.
  destruct (Nat.eqb_spec x y); [discriminate|]. destruct (Nat.eqb_spec x 1); [discriminate|]. destruct (Nat.eqb_spec y 1); [discriminate|]. lia.
Qed.
Lemma list_max_bound : forall A (l : list (list A)) s, In s l -> length s <= list_max (map (@length A) l).
Proof. unfold list_max. induction l as [|a l IH]; intros s H; cbn in *; [tauto|]. destruct H as [->|H]; [lia|]. specialize (IH s H). lia. Qed.
Lemma J_cons : forall s rest r0, J rest r0 -> forall r, J (s :: rest) r <-> J [s; r0] r.
Proof.
  intros s rest r0 [A B] r. split; intros [C D]; (split; [unfold list_max in *; cbn in *; lia|]); intros k; destruct (B k) as [B1 B2]; destruct (D k) as [D1 D2]; split.
  - intros t [<-|[<-|[]]]; [apply D1; cbn; auto|]. destruct B2 as [B2|(t & Ht & E)]; [auto|]. rewrite <- E. apply D1. cbn. auto.
  - destruct D2 as [D2|(t & [<-|Ht] & E)]; [auto|right; exists s; cbn; auto|]. destruct (B1 t Ht) as [F|F]; [left; congruence|]. right. exists r0. cbn. split; [auto|congruence].
  - intros t [<-|Ht]; [apply D1; cbn; auto|]. destruct (B1 t Ht) as [F|F]; [auto|]. rewrite F. apply D1. cbn. auto.
  - destruct D2 as [D2|(t & [<-|[<-|[]]] & E)]; [auto|right; exists s; cbn; auto|]. destruct B2 as [B2|(t & Ht & F)]; [left; congruence|]. right. exists t. cbn. split; [auto|congruence].
Qed.
Lemma J_rest : forall s rest r, J (s :: rest) r -> exists r0, J rest r0.
Proof.
  intros s rest r [A B].
  exists (map (fun k => if existsb (fun t => negb (nth k t 1 =? 1)) rest then nth k r 1 else 1) (seq 0 (list_max (map (@length nat) rest)))).
  split; [now rewrite map_length, seq_length|]. intros k.
  assert (IN : forall t, In t rest -> nth k t 1 = 1 \/ nth k t 1 = nth k r 1) by (intros; apply B; cbn; auto).
  destruct (Nat.lt_ge_cases k (list_max (map (@length nat) rest))) as [L|L].
  - assert (E : nth k (map (fun k => if existsb (fun t => negb (nth k t 1 =? 1)) rest then nth k r 1 else 1) (seq 0 (list_max (map (@length nat) rest)))) 1 = if existsb (fun t => negb (nth k t 1 =? 1)) rest then nth k r 1 else 1).
    { rewrite (nth_indep _ 1 ((fun k => if existsb (fun t => negb (nth k t 1 =? 1)) rest then nth k r 1 else 1) 0)) by (rewrite map_length, seq_length; auto). rewrite (map_nth (fun k => if existsb (fun t => negb (nth k t 1 =? 1)) rest then nth k r 1 else 1)), seq_nth by auto. reflexivity. }
    rewrite E. destruct (existsb _ rest) eqn:X.
    + split; auto. apply existsb_exists in X as (t & Ht & N). right. exists t. split; auto. destruct (IN t Ht) as [F|F]; [|exact F]. rewrite F in N. discriminate.
    + split; auto. intros t Ht. left. destruct (Nat.eqb_spec (nth k t 1) 1) as [F|F]; auto. exfalso. assert (C : existsb (fun t => negb (nth k t 1 =? 1)) rest = true) by (apply existsb_exists; exists t; split; auto; apply negb_true_iff; now apply Nat.eqb_neq). congruence.
  - rewrite (nth_overflow (map _ _)) by (rewrite map_length, seq_length; auto). split; [|auto]. intros t Ht. left. apply nth_overflow. pose proof (list_max_bound _ _ _ Ht). lia.
Qed.
Lemma join_all_spec : forall shs, match join_all shs with Some r => J (map (@rev nat) shs) (rev r) | None => forall r, ~ J (map (@rev nat) shs) r end.
Proof.
  induction shs as [|s rest IH]; cbn [join_all map]; [split; [reflexivity|]; intros k; split; [intros ? []|left; apply nth_nil_1]|].
  destruct (join_all rest) as [r0|].
  - destruct (join_rev (rev s) (rev r0)) as [r|] eqn:E; cbn [option_map].
    + rewrite rev_involutive. apply (J_cons _ _ _ IH). now apply join_rev_some.
    + intros r C. apply (J_cons _ _ _ IH) in C. exact (join_rev_none _ _ E _ C).
  - intros r C. apply J_rest in C as (r0 & C). exact (IH r0 C).
Qed.

Section One.
Context {A : Type} (zero : A) (draw : gen (A := A) -> call (A := A) -> list nat -> dict A -> A).
Notation compute := (np_compute zero draw).
(** The generator that makes the draws. *)
Notation used nd rng := (match rng with Some g => g | None => nr_own nd end).
(** The index of a parameter's element for the element [idx] of the result: aligned at the end, 0 where the parameter has size 1. *)
Definition aligned (sh idx : list nat) (j : list nat) : Prop :=
  length j = length sh /\ forall k, k < length sh -> nth k (rev j) 0 = if nth k (rev sh) 1 =? 1 then 0 else nth k (rev idx) 0.
Lemma bidx_rev_len : forall sh idx, length sh <= length idx -> length (bidx_rev sh idx) = length sh.
Proof. induction sh as [|d sh IH]; intros idx H; destruct idx as [|i idx]; cbn in *; try lia. rewrite IH; lia. Qed.
Lemma bidx_rev_nth : forall sh idx k, length sh <= length idx -> k < length sh -> nth k (bidx_rev sh idx) 0 = if nth k sh 1 =? 1 then 0 else nth k idx 0.
Proof. induction sh as [|d sh IH]; intros idx k H K; destruct idx as [|i idx]; cbn in *; try lia. destruct k as [|k]; [reflexivity|]. apply IH; lia. Qed.
Lemma bidx_aligned : forall sh idx, length sh <= length idx -> aligned sh idx (bidx sh idx).
Proof.
  intros sh idx H. unfold aligned, bidx. rewrite rev_length, rev_involutive. split; [rewrite bidx_rev_len; rewrite !rev_length; auto|].
  intros k K. apply bidx_rev_nth; rewrite !rev_length; auto.
Qed.

(** One sample of a node without [size], with rectangular arrays as parameters: if the shapes broadcast, the result has the common shape and every element is one draw for the aligned elements of
    the parameters; if not, a ValueError, and nothing is drawn. *)
Theorem C77_arrays : forall nd ps rng, nr_dims nd = [] -> nr_fixed nd = [] -> NoDup (map fst ps) ->
  Forall (fun kv => has_shape (shape_of (snd kv)) (snd kv) = true) ps ->
  (forall out, common_shape (map (fun kv => shape_of (snd kv)) ps) out ->
     exists v nd' rng', compute nd 1 ps rng = (Ok v, nd', rng') /\ has_shape out v = true /\
     forall idx, in_range idx out -> exists vals, vget zero v idx = draw (used nd rng) (mkCall (nr_name nd) ps None) idx vals /\
       Forall2 (fun kv kx => fst kx = fst kv /\ exists j, aligned (shape_of (snd kv)) idx j /\ snd kx = vget zero (snd kv) j) ps vals) /\
  ((forall out, ~ common_shape (map (fun kv => shape_of (snd kv)) ps) out) -> compute nd 1 ps rng = (Err ValueError, nd, rng)).
Proof.
  intros nd ps rng HD HF ND HS.
  assert (R : forallb (fun kv : string * value A => has_shape (shape_of (snd kv)) (snd kv)) ps = true) by (apply forallb_forall; rewrite Forall_forall in HS; auto).
  assert (SP := join_all_spec (map (fun kv : string * value A => shape_of (snd kv)) ps)).
  rewrite compute_eq. cbv zeta. rewrite (eff_args nd rng ps HF ND), HD. unfold asked, np_call. rewrite R. cbv beta zeta.
  destruct (join_all _) as [sh|] eqn:E.
  - split; [|intros C; exfalso; apply (C sh); now apply J_common].
    intros out HC. assert (out = sh). { apply J_common in HC. rewrite <- (rev_involutive out), <- (rev_involutive sh). f_equal. exact (J_unique _ _ _ HC SP). } subst out.
    assert (G : forall nd' rng', exists v nd'' rng'', (Ok (tabulate sh (fun idx => draw (used nd rng) (mkCall (nr_name nd) ps None) idx (map (fun kv : string * value A => (fst kv, vget zero (snd kv) (bidx (shape_of (snd kv)) idx))) ps))), nd' : np_node (A := A), rng' : option (gen (A := A))) = (Ok v, nd'', rng'') /\ has_shape sh v = true /\
     forall idx, in_range idx sh -> exists vals, vget zero v idx = draw (used nd rng) (mkCall (nr_name nd) ps None) idx vals /\
       Forall2 (fun kv kx => fst kx = fst kv /\ exists j, aligned (shape_of (snd kv)) idx j /\ snd kx = vget zero (snd kv) j) ps vals).
    { intros nd' rng'. do 3 eexists. split; [reflexivity|]. split; [apply tabulate_shape|]. intros idx HI. rewrite tabulate_get by exact HI. eexists. split; [reflexivity|].
      assert (LI : length idx = length sh) by (clear - HI; induction HI; cbn; auto).
      assert (LS : forall kv, In kv ps -> length (shape_of (snd kv)) <= length idx).
      { intros kv HK. rewrite LI. apply J_common in SP. rewrite (proj1 SP), map_map. clear - HK. unfold list_max. induction ps as [|a l IH]; cbn in *; [tauto|]. destruct HK as [->|HK]; [lia|]. specialize (IH HK). lia. }
      clear - LS. induction ps as [|kv l IH]; cbn [map]; constructor.
      - cbn [fst snd]. split; auto. exists (bidx (shape_of (snd kv)) idx). split; auto. apply bidx_aligned. apply LS. cbn. auto.
      - apply IH. intros. apply LS. cbn. auto. }
    destruct rng as [g|]; apply G.
  - split; [intros out HC; exfalso; apply J_common in HC; exact (SP _ HC)|]. intros _. destruct rng as [g|]; [reflexivity|]. rewrite <- HD. destruct nd; reflexivity.
Qed.
End One.
(** Two rows of means and three columns of widths: six draws; widths of two and three elements do not broadcast. *)
Definition ex_arr2 : value nat := Arr [Arr [Atom 10]; Arr [Atom 20]].
Definition ex_arr3 : value nat := Arr [Atom 1; Atom 2; Atom 3].
Example C77_arrays_applies : let ps := [("loc"%string, ex_arr2); ("scale"%string, ex_arr3)] in
  Forall (fun kv => has_shape (shape_of (snd kv)) (snd kv) = true) ps /\ common_shape (map (fun kv => shape_of (snd kv)) ps) [2; 3] /\
  (forall out, ~ common_shape [[2]; [3]] out).
Proof.
  cbv zeta. split; [repeat constructor|]. split; [apply J_common; exact (join_all_spec [[2; 1]; [3]])|]. intros out C. apply J_common in C. exact (join_all_spec [[2]; [3]] _ C).
Qed.

(** ** C68: the values given when an effect is made are the ones it uses *)
From Coq Require Import Reals Lra.
From Verif Require Import RealBase PassbandModel SedModel SedProps SedPipeline.
Open Scope R_scope.
(** With the parameters that the effect itself declares, and for any other parameters behind them (those of the model and of the other effects). *)
Theorem C68_own_values : forall rest k mag others fr ebv t0 u0 te,
  acts (dimming rest (PNum fr)) (ef_params (dimming rest (PNum fr)) ++ others) (fun t w x => x * fr) /\
  acts (extinction rest k (PNum ebv)) (ef_params (extinction rest k (PNum ebv)) ++ others) (fun t w x => x * k w ebv) /\
  (forall use, use <> 0 -> let e := microlensing mag (PNum t0) (PNum u0) (PNum te) (PNum use) in acts e (ef_params e ++ others) (fun t w x => x * mag t0 u0 te t)) /\
  (let e := microlensing mag (PNum t0) (PNum u0) (PNum te) (PNum 0) in forall ts ws m, ef_apply e ts ws (ef_params e ++ others) m = Ok m).
Proof.
  intros. split; [now apply C68_dimming_acts|]. split; [now apply C68_extinction_acts|]. split.
  - intros use U. apply C68_microlensing_acts; try reflexivity. cbn. apply negb_true_iff. now apply Reqb_false.
  - intros e ts ws m. apply C68_microlensing_off. cbn. apply negb_false_iff. now apply Reqb_true.
Qed.

(** ** C38: the light curve of one object *)
From Verif Require Import ObsTableModel ObsTableProps SimulateModel SimulateProps.
Close Scope R_scope.
Open Scope nat_scope.
Lemma combine_app_ : forall A B (a a' : list A) (b b' : list B), length a = length b -> combine (a ++ a') (b ++ b') = combine a b ++ combine a' b'.
Proof. induction a as [|x a IH]; intros a' b b' H; destruct b; try discriminate; cbn; auto. f_equal. apply IH. now injection H. Qed.
Lemma filter_map_len : forall (n : nat -> nat) l, length (flat_map (fun i => repeat i (n i)) l) = list_sum (map n l).
Proof. induction l as [|a l IH]; cbn; auto. rewrite app_length, repeat_length. unfold list_sum in *. lia. Qed.
Lemma block_all : forall i m o, map snd (filter (fun p => fst p =? i) (combine (repeat i m) (seq o m))) = seq o m.
Proof. induction m as [|m IH]; intros o; cbn; auto. rewrite Nat.eqb_refl. cbn. now rewrite IH. Qed.
Lemma block_none : forall i j m o, j <> i -> map snd (filter (fun p => fst p =? i) (combine (repeat j m) (seq o m))) = [].
Proof. induction m as [|m IH]; intros o H; cbn; auto. replace (j =? i) with false by (symmetry; now apply Nat.eqb_neq). auto. Qed.
Lemma blocks_none : forall (n : nat -> nat) i l o, ~ In i l -> map snd (filter (fun p => fst p =? i) (combine (flat_map (fun i => repeat i (n i)) l) (seq o (list_sum (map n l))))) = [].
Proof.
  induction l as [|a l IH]; intros o H; [reflexivity|]. cbn [flat_map map]. change (list_sum (n a :: map n l)) with (n a + list_sum (map n l)). rewrite seq_app, combine_app_ by now rewrite repeat_length, seq_length.
  rewrite filter_app, map_app, block_none by (cbn in H; intuition). apply IH. cbn in H. intuition.
Qed.
Lemma blocks : forall (n : nat -> nat) i N a o, a <= i < a + N ->
  map snd (filter (fun p => fst p =? i) (combine (flat_map (fun i => repeat i (n i)) (seq a N)) (seq o (list_sum (map n (seq a N)))))) = seq (o + list_sum (map n (seq a (i - a)))) (n i).
Proof.
  induction N as [|N IH]; intros a o H; [lia|]. cbn [seq flat_map map]. change (list_sum (n a :: map n (seq (S a) N))) with (n a + list_sum (map n (seq (S a) N))).
  rewrite seq_app, combine_app_ by now rewrite repeat_length, seq_length. rewrite filter_app, map_app. destruct (Nat.eq_dec a i) as [->|NE].
  - rewrite block_all, blocks_none by (rewrite in_seq; lia). rewrite app_nil_r, Nat.sub_diag. cbn. now rewrite Nat.add_0_r.
  - rewrite block_none by auto. cbn [app]. rewrite IH by lia. f_equal. replace (i - a) with (S (i - S a)) by lia. cbn [seq map]. change (list_sum (n a :: map n (seq (S a) (i - S a)))) with (n a + list_sum (map n (seq (S a) (i - S a)))). lia.
Qed.
(** The nested light curve of object [i] is the block of [nobs i] rows behind those of the objects before it, in order; so every row belongs to exactly one object. *)
Theorem C38_light_curves : forall (St PV : Type) ball (m : physical (St := St)) flux error keep draws num (sm : samples (St := St) (PV := PV)) surveys npass save params use_mask off r,
  ball_spec ball -> pointwise m flux error keep -> run_ok num sm surveys ->
  NoDup save -> (forall k, In k save -> ~ In k base_cols) ->
  simulate ball m draws num sm surveys npass save params use_mask off = Ok r ->
  exists nobs : nat -> nat, dget "nobs" (sr_cols r) = Some (map (fun i => ONat (nobs i)) (seq 0 (Z.to_nat num))) /\
    (forall i, i < Z.to_nat num -> SimulateModel.rows_of (PV := PV) r i = seq (list_sum (map nobs (seq 0 i))) (nobs i)) /\
    forall p, p < length (sr_index r) -> exists i, i < Z.to_nat num /\ In p (SimulateModel.rows_of (PV := PV) r i) /\ forall j, j < Z.to_nat num -> In p (SimulateModel.rows_of (PV := PV) r j) -> j = i.
Proof.
  intros St PV ball m flux error keep draws num sm surveys npass save params use_mask off r HB PW RO HS HD H.
  destruct (C38_bookkeeping _ m flux error keep draws num sm surveys npass save params use_mask off r HB PW RO HS HD H) as (lo & hi & rows & _ & _ & _ & EI & EN & _ & _). cbv zeta in EI, EN.
  set (nobs := fun i => length (flat_map (fun s => rows i s) (seq 0 (length surveys)))) in *. exists nobs. split; [exact EN|].
  assert (SL : length (sr_index r) = list_sum (map nobs (seq 0 (Z.to_nat num)))) by (rewrite EI; apply filter_map_len).
  assert (R : forall i, i < Z.to_nat num -> SimulateModel.rows_of (PV := PV) r i = seq (list_sum (map nobs (seq 0 i))) (nobs i)).
  { intros i Hi. unfold SimulateModel.rows_of. rewrite SL, EI. rewrite blocks by lia. now rewrite Nat.sub_0_r. }
  split; [exact R|]. intros p Hp. destruct (nth_error (sr_index r) p) as [i|] eqn:E; [|apply nth_error_None in E; lia].
  assert (ROW : forall j, In p (SimulateModel.rows_of (PV := PV) r j) <-> j = i).
  { intros j. unfold SimulateModel.rows_of. rewrite in_map_iff. split.
    - intros ([a b] & <- & HI). apply filter_In in HI. destruct HI as [HI HJ]. cbn in HJ. apply Nat.eqb_eq in HJ. subst a. apply In_nth_error in HI as (q & HQ). cbn [snd] in *.
      rewrite nth_error_combine in HQ. destruct (nth_error (sr_index r) q) as [x|] eqn:E1; [|discriminate]. destruct (nth_error (seq 0 (length (sr_index r))) q) as [y|] eqn:E2; [|discriminate]. injection HQ as -> ->.
      assert (q < length (sr_index r)) by (apply nth_error_Some; congruence). rewrite (nth_error_nth' _ 0) in E2 by now rewrite seq_length. rewrite seq_nth in E2 by auto. injection E2 as E2. cbn in E2. subst. congruence.
    - intros ->. exists (i, p). split; auto. apply filter_In. split; [|cbn; apply Nat.eqb_refl]. apply nth_error_In with p. rewrite nth_error_combine, E. rewrite (nth_error_nth' _ 0) by now rewrite seq_length. now rewrite seq_nth. }
  exists i. split; [|split].
  - rewrite EI in E. apply nth_error_In in E. apply in_flat_map in E as (k & Hk & E). apply repeat_spec in E. subst. apply in_seq in Hk. lia.
  - now apply ROW.
  - intros j _ HJ. now apply ROW.
Qed.
