(** Properties C23-C27 and C64: samplers that hand out given values, select by index,
    keep table rows aligned, reject sky positions and draw HEALPix pixels. *)
From Coq Require Import String List Bool Arith ZArith QArith Lia.
From Verif Require Import Base BaseFacts GraphStateModel SamplerModel.
Import ListNotations.
Open Scope string_scope.
Open Scope list_scope.
Open Scope nat_scope.

(** The samples contained in a returned value: the value itself for one sample, the
    elements of the array for several. *)
Definition elems {A} (v : value A) : list A :=
  match v with
  | Atom a => [a]
  | Arr l => flat_map (fun x => match x with Atom a => [a] | Arr _ => [] end) l
  end.
Definition got {A} (r : result (value A)) : list A := match r with Ok v => elems v | Err _ => [] end.

Lemma elems_Arr : forall A (l : list A), elems (Arr (map Atom l)) = l.
Proof. intros A l. simpl. induction l; simpl; congruence. Qed.

(** ** C23 *)
(** What was delivered since the last reset, from the calls and their results. *)
Fixpoint delivered {A} (cs : list gvl_call) (rs : list (result (value A))) (acc : list A) : list A :=
  match cs, rs with
  | GReset :: cs', _ => delivered cs' rs []
  | GCompute _ :: cs', r :: rs' => delivered cs' rs' (acc ++ got r)
  | _, _ => acc
  end.

Lemma firstn_add : forall A (l : list A) i n, firstn (i + n) l = firstn i l ++ firstn n (skipn i l).
Proof. intros A l i. revert l. induction i; intros [|x l] n; simpl; auto. now rewrite firstn_nil. now rewrite IHi. Qed.

Lemma firstn_S_nth : forall A (l : list A) i v, nth_error l i = Some v -> firstn 1 (skipn i l) = [v].
Proof.
  intros A l. induction l as [|x l IH]; intros [|i] v H; simpl in H; try discriminate.
  - inversion H. reflexivity.
  - apply (IH i v H).
Qed.

Lemma gvl_step : forall A (s : gvl A) n s' r,
  gv_next s <= length (gv_values s) -> gvl_compute s n = (s', r) ->
  (gv_next s + n <= length (gv_values s) /\ gv_values s' = gv_values s /\ gv_next s' = gv_next s + n /\
   exists v, r = Ok v /\ elems v = firstn n (skipn (gv_next s) (gv_values s)) /\
             (n = 1 -> exists a, v = Atom a) /\ (n <> 1 -> exists l, v = Arr l /\ length l = n))
  \/ (length (gv_values s) < gv_next s + n /\ s' = s /\ r = Err IndexError).
Proof.
  intros A [vs nx] n s' r HL H. unfold gvl_compute in H; cbn [gv_values gv_next] in *.
  destruct (Nat.eqb_spec n 1) as [->|N1].
  - destruct (Nat.leb_spec (length vs) nx).
    + inversion H; subst. right. repeat split; auto; simpl; lia.
    + destruct (nth_error vs nx) as [v|] eqn:E.
      * inversion H; subst. left. cbn [gv_values gv_next] in *. split; [lia|]. do 2 (split; auto).
        exists (Atom v). split; auto. cbn [elems]. split; [symmetry; eauto using firstn_S_nth|].
        split; [eauto|lia].
      * apply nth_error_None in E. lia.
  - destruct (Nat.ltb_spec (length vs) (nx + n)).
    + inversion H; subst. right. auto.
    + inversion H; subst. left. cbn [gv_values gv_next] in *. split; [lia|]. do 2 (split; auto).
      eexists. split; [reflexivity|]. rewrite elems_Arr. unfold slice. replace (nx + n - nx) with n by lia.
      split; auto. split; [lia|]. intros _. eexists; split; [reflexivity|].
      rewrite map_length, firstn_length, skipn_length. lia.
Qed.

Lemma gvl_run_inv : forall A cs (s s' : gvl A) rs acc vs,
  gv_values s = vs -> gv_next s <= length vs -> acc = firstn (gv_next s) vs ->
  gvl_run s cs = (s', rs) ->
  gv_values s' = vs /\ gv_next s' <= length vs /\ delivered cs rs acc = firstn (gv_next s') vs.
Proof.
  intros A cs. induction cs as [|c cs IH]; intros s s' rs acc vs EV HL EA H.
  - simpl in H. inversion H; subst. simpl. auto.
  - destruct c as [n|].
    + simpl in H. destruct (gvl_compute s n) as [s1 r] eqn:EC. destruct (gvl_run s1 cs) as [s2 rs'] eqn:ER.
      inversion H; subst. simpl. edestruct (gvl_step _ _ _ _ _ HL EC) as [(B1 & B2 & B3 & v & -> & B4 & _)|(B1 & B2 & ->)].
      * eapply IH; [exact B2|rewrite B3; exact B1| |exact ER]. cbn [got]. rewrite B4, B3, <- firstn_add. reflexivity.
      * subst. simpl. rewrite app_nil_r. eapply IH; eauto.
    + simpl in H. simpl. eapply IH; [| | |exact H]; simpl; auto. lia.
Qed.

(** After any history of [compute] and [reset] calls, what was delivered since the last reset
    is a prefix of the given values; the next call for [n] samples delivers the next [n] of
    them (a scalar for one sample, an array of [n] otherwise), or, if fewer are left, raises
    IndexError and leaves the node as it was. *)
Theorem C23_in_order : forall A (values : list A) s0 cs s rs n s' r,
  gvl_make values = Ok s0 -> gvl_run s0 cs = (s, rs) -> gvl_compute s n = (s', r) ->
  exists rest, values = delivered cs rs [] ++ rest /\
    (n <= length rest ->
       exists v, r = Ok v /\ elems v = firstn n rest /\
         (n = 1 -> exists a, v = Atom a) /\ (n <> 1 -> exists l, v = Arr l /\ length l = n)) /\
    (length rest < n -> r = Err IndexError /\ s' = s).
Proof.
  intros A values s0 cs s rs n s' r HM HR HC.
  unfold gvl_make in HM. destruct values as [|v0 vl] eqn:EV; [discriminate|]. rewrite <- EV in *. inversion HM; subst s0.
  destruct (gvl_run_inv _ _ (mkGVL values 0) _ _ (@nil A) values eq_refl (Nat.le_0_l _) eq_refl HR) as (I1 & I2 & I3).
  exists (skipn (gv_next s) values). rewrite I3, firstn_skipn. split; auto.
  rewrite <- I1 in I2. pose proof (skipn_length (gv_next s) values) as HS.
  destruct (gvl_step _ _ _ _ _ I2 HC) as [(B1 & B2 & B3 & v & -> & B4 & B5 & B6)|(B1 & B2 & B3)]; rewrite I1 in *.
  - split; [|lia]. intros _. exists v. auto.
  - split; [lia|]. auto.
Qed.

(** With no reset in between, all successful results together are a prefix of the values. *)
Theorem C23_prefix : forall A (values : list A) s0 ns s rs,
  gvl_make values = Ok s0 -> gvl_run s0 (map GCompute ns) = (s, rs) ->
  exists rest, values = flat_map got rs ++ rest.
Proof.
  intros A values s0 ns s rs HM HR.
  destruct (gvl_compute s 0) as [s' r] eqn:EC.
  destruct (C23_in_order _ _ _ _ _ _ _ _ _ HM HR EC) as (rest & E & _). exists rest. rewrite E at 1. f_equal.
  clear - HR. assert (G : forall acc, delivered (map GCompute ns) rs acc = acc ++ flat_map got rs).
  { revert s0 s rs HR. induction ns as [|n ns IH]; intros s0 s rs HR acc; simpl in *.
    - inversion HR; subst. simpl. now rewrite app_nil_r.
    - destruct (gvl_compute s0 n) as [s1 r]. destruct (gvl_run s1 (map GCompute ns)) as [s2 rs'] eqn:E.
      inversion HR; subst. simpl. rewrite (IH _ _ _ E). now rewrite app_assoc. }
  apply (G []).
Qed.
(** After [reset] the node behaves as when it was created. *)
Theorem C23_reset : forall A (values : list A) s0 cs s rs,
  gvl_make values = Ok s0 -> gvl_run s0 cs = (s, rs) -> gvl_reset s = s0.
Proof.
  intros A values s0 cs s rs HM HR. unfold gvl_make in HM. destruct values as [|v0 vl] eqn:EV; [discriminate|].
  rewrite <- EV in *. inversion HM; subst s0.
  destruct (gvl_run_inv _ _ (mkGVL values 0) _ _ (@nil A) values eq_refl (Nat.le_0_l _) eq_refl HR) as (I1 & I2 & I3).
  unfold gvl_reset. now rewrite I1.
Qed.
Theorem C23_empty_rejected : forall A, @gvl_make A [] = Err ValueError.
Proof. reflexivity. Qed.
Example C23_applies : exists s0 s rs,
  gvl_make [10; 11; 12; 13; 14]%Z = Ok s0 /\
  gvl_run s0 [GCompute 2; GReset; GCompute 1; GCompute 3; GCompute 2; GCompute 1] = (s, rs) /\
  rs = [Ok (Arr [Atom 10; Atom 11]); Ok (Atom 10); Ok (Arr [Atom 11; Atom 12; Atom 13]); Err IndexError; Ok (Atom 14)]%Z.
Proof. do 3 eexists. split; [reflexivity|]. split; reflexivity. Qed.

(** ** C24 *)
(** Sample [i] of the returned value [v] is the entry of [col] in row [nth i rows]. *)
Definition reads_rows {A} (col : list A) (rows : list nat) (v : value A) : Prop :=
  Forall2 (fun r a => nth_error col r = Some a) rows (elems v).
(** One common list of rows for all columns. *)
Definition aligned {A} (data : dict (list A)) (rows : list nat) (vs : list (value A)) : Prop :=
  length vs = length data /\
  forall j name col v, nth_error data j = Some (name, col) -> nth_error vs j = Some v -> reads_rows col rows v.

Lemma take_inds_rows : forall A (l : list A) inds vs, take_inds l inds = Ok vs ->
  Forall2 (fun r a => nth_error l r = Some a) inds vs.
Proof.
  intros A l inds. induction inds as [|i is' IH]; intros vs H; simpl in H.
  - inversion H. constructor.
  - destruct (nth_error l i) eqn:E; [|discriminate]. destruct (take_inds l is'); [|discriminate].
    simpl in H. inversion H; subst. constructor; auto.
Qed.
Lemma take_inds_ok : forall A (l : list A) inds, Forall (fun i => i < length l) inds ->
  exists vs, take_inds l inds = Ok vs /\ length vs = length inds.
Proof.
  intros A l inds H. induction H as [|i is' Hi _ IH]; simpl; eauto.
  destruct IH as (vs & -> & EL). destruct (nth_error l i) eqn:E.
  - simpl. eexists; split; [reflexivity|]. simpl. congruence.
  - apply nth_error_None in E. lia.
Qed.
Lemma squeeze_ok : forall A n (l : list A), length l = n -> 1 <= n ->
  exists v, squeeze n l = Ok v /\ elems v = l.
Proof.
  intros A n l EL Hn. unfold squeeze. destruct (Nat.eqb_spec n 1) as [->|N].
  - destruct l as [|x [|y l]]; try discriminate. eexists; split; reflexivity.
  - eexists; split; [reflexivity|]. apply elems_Arr.
Qed.
Lemma squeeze_elems : forall A n (l : list A) v, length l = n -> squeeze n l = Ok v -> elems v = l.
Proof.
  intros A n l v EL H. unfold squeeze in H. destruct (Nat.eqb_spec n 1) as [->|N].
  - destruct l as [|x [|y l]]; try discriminate. inversion H. reflexivity.
  - inversion H. apply elems_Arr.
Qed.

Lemma ts_columns_aligned : forall A (d : dict (list A)) n inds,
  length inds = n -> 1 <= n -> Forall (fun c => Forall (fun i => i < length (snd c)) inds) d ->
  exists vs, ts_columns d n inds = Ok vs /\ aligned d inds vs.
Proof.
  intros A d n inds EL Hn H. induction H as [|[nm col] d Hc _ IH].
  - exists []. split; auto. split; auto. intros [|j]; discriminate.
  - destruct IH as (vs & E & L & AL). simpl in Hc.
    destruct (take_inds_ok _ _ _ Hc) as (xs & EX & LX).
    destruct (squeeze_ok _ n xs) as (v & SV & EV); [congruence|auto|].
    exists (v :: vs). simpl. rewrite EX. simpl. rewrite SV. simpl. rewrite E. simpl. split; auto.
    split; [simpl; congruence|]. intros [|j] name c w H1 H2; simpl in *.
    + inversion H1; inversion H2; subst. unfold reads_rows. apply take_inds_rows. congruence.
    + eauto.
Qed.

Definition table_ok {A} (s : tsampler A) (data : dict (list A)) : Prop :=
  ts_data s = data /\ Forall (fun c => length (snd c) = table_len data) data.
Lemma ts_make_ok : forall A (data : dict (list A)) io s, ts_make data io = Ok s ->
  table_ok s data /\ ts_in_order s = io /\ ts_next s = 0 /\ ts_num s = table_len data /\ 1 <= table_len data.
Proof.
  intros A data io s H. unfold ts_make in H.
  destruct (forallb (fun c => length (snd c) =? table_len data) data) eqn:E; simpl in H; [|discriminate].
  destruct (Nat.eqb_spec (table_len data) 0); [discriminate|]. inversion H; subst. split; [|cbn; repeat split; auto; lia].
  split; auto. rewrite forallb_forall in E. apply Forall_forall. intros c Hc. now apply Nat.eqb_eq, E.
Qed.

(** Draws as numpy gives them: one row index below the number of rows per sample. *)
Definition valid_draws (rows n : nat) (draws : list nat) : Prop :=
  length draws = n /\ Forall (fun i => i < rows) draws.
Definition valid_call (rows : nat) (c : ts_call) : Prop :=
  match c with TCompute n dr => 1 <= n /\ valid_draws rows n dr | TReset => True end.

(** The number of table rows handed out since the last reset. *)
Fixpoint rows_used {A} (cs : list ts_call) (rs : list (result (list (value A)))) (k : nat) : nat :=
  match cs, rs with
  | TReset :: cs', _ => rows_used cs' rs 0
  | TCompute n _ :: cs', r :: rs' => rows_used cs' rs' (if is_ok r then k + n else k)
  | _, _ => k
  end.

Lemma ts_step : forall A (data : dict (list A)) s n dr s' r,
  table_ok s data -> ts_next s <= table_len data -> 1 <= n -> valid_draws (table_len data) n dr ->
  ts_compute s n dr = (s', r) ->
  table_ok s' data /\ ts_in_order s' = ts_in_order s /\
  ((ts_in_order s = true /\ table_len data < ts_next s + n /\ s' = s /\ r = Err IndexError) \/
   (ts_in_order s = true /\ ts_next s + n <= table_len data /\ ts_next s' = ts_next s + n /\
      exists vs, r = Ok vs /\ aligned data (seq (ts_next s) n) vs) \/
   (ts_in_order s = false /\ s' = s /\ exists vs, r = Ok vs /\ aligned data dr vs)).
Proof.
  intros A data s n dr s' r [T1 T2] HN H1 [V1 V2] H. unfold ts_compute in H.
  destruct (ts_in_order s) eqn:EO.
  - rewrite T1 in H. destruct (Nat.ltb_spec (table_len data) (ts_next s + n)).
    + inversion H; subst s' r. split; [split; auto|]. split; auto. 
    + inversion H; subst s' r. cbn [ts_data ts_in_order ts_next]. split; [split; auto|]. split; auto. right; left.
      split; auto. split; auto. split; auto. replace (ts_next s + n - ts_next s) with n by lia.
      apply ts_columns_aligned; [apply seq_length|auto|]. apply Forall_forall. intros c Hc.
      apply Forall_forall. intros i Hi. apply in_seq in Hi. rewrite Forall_forall in T2. rewrite (T2 _ Hc). lia.
  - inversion H; subst s' r. split; [split; auto|]. split; auto. right; right. split; auto. split; auto.
    rewrite T1. apply ts_columns_aligned; auto. apply Forall_forall. intros c Hc.
    rewrite Forall_forall in T2. now rewrite (T2 _ Hc).
Qed.

Lemma ts_run_inv : forall A cs (data : dict (list A)) s s' rs,
  table_ok s data -> ts_next s <= table_len data -> Forall (valid_call (table_len data)) cs ->
  ts_run s cs = (s', rs) ->
  table_ok s' data /\ ts_next s' <= table_len data /\ ts_in_order s' = ts_in_order s /\
  (ts_in_order s = true -> rows_used cs rs (ts_next s) = ts_next s').
Proof.
  intros A cs. induction cs as [|c cs IH]; intros data s s' rs T HN HV H.
  - simpl in H; inversion H; subst. auto.
  - inversion HV as [|? ? V1 V2]; subst. destruct c as [n dr|].
    + simpl in H. destruct (ts_compute s n dr) as [s1 r] eqn:EC. destruct (ts_run s1 cs) as [s2 rs'] eqn:ER.
      inversion H; subst s2 rs. destruct V1 as [VA VB].
      destruct (ts_step _ _ _ _ _ _ _ T HN VA VB EC) as (T' & O' & Q).
      assert (HN' : ts_next s1 <= table_len data) by (destruct Q as [(?&?&?&?)|[(?&?&?&?)|(?&?&?)]]; subst; lia).
      destruct (IH data s1 s' rs' T' HN' V2 ER) as (A1 & A2 & A3 & A4). split; auto. split; auto. split; [congruence|].
      intros EO. simpl. rewrite <- A4 by congruence.
      destruct Q as [(_&_&->&->)|[(_&?&E&vs&->&_)|(Q&_)]]; [reflexivity| |congruence]. simpl. now rewrite E.
    + simpl in H. simpl. assert (T0 : table_ok (ts_reset s) data) by (destruct T; split; auto).
      destruct (IH data (ts_reset s) s' rs T0 (Nat.le_0_l _) V2 H) as (A1 & A2 & A3 & A4). auto.
Qed.

(** After any history of calls, the samples of one [compute] call come from one common list of
    rows for all columns: the drawn rows, or in [in_order] mode the next consecutive rows, so none is
    repeated; when not enough rows are left the call raises IndexError and changes nothing. *)
Theorem C24_rows_aligned : forall A (data : dict (list A)) io s0 cs s rs n dr s' r,
  ts_make data io = Ok s0 -> Forall (valid_call (table_len data)) cs -> ts_run s0 cs = (s, rs) ->
  1 <= n -> valid_draws (table_len data) n dr -> ts_compute s n dr = (s', r) ->
  (io = false -> exists vs, r = Ok vs /\ aligned data dr vs) /\
  (io = true ->
     let k := rows_used cs rs 0 in
     (k + n <= table_len data -> exists vs, r = Ok vs /\ aligned data (seq k n) vs) /\
     (table_len data < k + n -> r = Err IndexError /\ s' = s)).
Proof.
  intros A data io s0 cs s rs n dr s' r HM HV HR Hn HD HC.
  destruct (ts_make_ok _ _ _ _ HM) as (T & O & N & M & _).
  assert (HN : ts_next s0 <= table_len data) by lia.
  destruct (ts_run_inv _ _ _ _ _ _ T HN HV HR) as (T' & N' & O' & U). rewrite N in U.
  destruct (ts_step _ _ _ _ _ _ _ T' N' Hn HD HC) as (_ & _ & Q).
  split; intros ->.
  - destruct Q as [(?&_)|[(?&_)|(_&_&Q)]]; [congruence|congruence|auto].
  - cbv zeta. rewrite U by auto. destruct Q as [(_&?&->&->)|[(_&?&_&Q)|(?&_)]]; [| |congruence]; split; auto; lia.
Qed.
Theorem C24_reset : forall A (data : dict (list A)) io s0 cs s rs,
  ts_make data io = Ok s0 -> Forall (valid_call (table_len data)) cs -> ts_run s0 cs = (s, rs) -> ts_reset s = s0.
Proof.
  intros A data io s0 cs s rs HM HV HR.
  assert (G : ts_data s = ts_data s0 /\ ts_in_order s = ts_in_order s0 /\ ts_num s = ts_num s0).
  { clear HM HV. revert s0 s rs HR. induction cs as [|c cs IH]; intros s0 s rs HR.
    - simpl in HR; inversion HR; auto.
    - destruct c as [n dr|]; simpl in HR.
      + destruct (ts_compute s0 n dr) as [s1 r] eqn:E. destruct (ts_run s1 cs) as [s2 rs'] eqn:E2. inversion HR; subst.
        destruct (IH _ _ _ E2) as (-> & -> & ->). unfold ts_compute in E. destruct (ts_in_order s0) eqn:EO.
        * destruct (table_len (ts_data s0) <? ts_next s0 + n); inversion E; subst; simpl; auto.
        * inversion E; subst; auto.
      + destruct (IH _ _ _ HR) as (-> & -> & ->). auto. }
  destruct G as (G1 & G2 & G3). unfold ts_reset. rewrite G1, G2, G3.
  destruct (ts_make_ok _ _ _ _ HM) as (_ & _ & N & _). destruct s0; simpl in *. now subst.
Qed.
(** Inputs that are not tables, or have no rows, are rejected. *)
Theorem C24_bad_tables : forall A (data : dict (list A)) io,
  (table_len data = 0 \/ exists c, In c data /\ length (snd c) <> table_len data) -> ts_make data io = Err ValueError.
Proof.
  intros A data io H. unfold ts_make.
  destruct (forallb (fun c => length (snd c) =? table_len data) data) eqn:E; simpl; auto.
  destruct H as [->|(c & C1 & C2)]; auto.
  rewrite forallb_forall in E. apply E in C1. apply Nat.eqb_eq in C1. contradiction.
Qed.
Definition ex_table : dict (list Z) := [("ra", [1; 2; 3; 4]%Z); ("dec", [10; 20; 30; 40]%Z)].
Example C24_applies : exists s0 s rs,
  ts_make ex_table true = Ok s0 /\ ts_run s0 [TCompute 1 [0]; TCompute 2 [0; 0]; TCompute 2 [0; 0]] = (s, rs) /\
  rs = [Ok [Atom 1; Atom 10]; Ok [Arr [Atom 2; Atom 3]; Arr [Atom 20; Atom 30]]; Err IndexError]%Z /\
  (let (_, r) := ts_compute (mkTS ex_table false 0 4) 3 [3; 0; 3] in
   r = Ok [Arr [Atom 4; Atom 1; Atom 4]; Arr [Atom 40; Atom 10; Atom 40]]%Z).
Proof. do 3 eexists. split; [reflexivity|]. split; [reflexivity|]. split; reflexivity. Qed.

(** ** C25 *)
Lemma zget_in : forall A (l : list A) i, (0 <= i < Z.of_nat (length l))%Z ->
  exists v, zget l i = Ok v /\ nth_error l (Z.to_nat i) = Some v.
Proof.
  intros A l i H. unfold zget. replace (i <? 0)%Z with false by (symmetry; apply Z.ltb_ge; lia). cbv zeta.
  replace (i <? 0)%Z with false by (symmetry; apply Z.ltb_ge; lia).
  destruct (nth_error l (Z.to_nat i)) eqn:E; eauto. apply nth_error_None in E. lia.
Qed.
(** A scalar index in range gives that value, any other index raises IndexError. *)
Theorem C25_select_scalar : forall A (values : list A) i,
  ((0 <= i < Z.of_nat (length values))%Z ->
     exists v, selector_select values (IScalar i) = Ok (Atom v) /\ nth_error values (Z.to_nat i) = Some v) /\
  (~ (0 <= i < Z.of_nat (length values))%Z -> selector_select values (IScalar i) = Err IndexError).
Proof.
  intros A values i. unfold selector_select, out_of_bounds. split; intros H.
  - destruct (zget_in _ _ _ H) as (v & E & N). exists v.
    replace (i <? 0)%Z with false by (symmetry; apply Z.ltb_ge; lia).
    replace (Z.of_nat (length values) <=? i)%Z with false by (symmetry; apply Z.leb_gt; lia).
    simpl. rewrite E. auto.
  - destruct (Z.ltb_spec i 0); simpl; auto. destruct (Z.leb_spec (Z.of_nat (length values)) i); auto. lia.
Qed.
(** An array of indices: elementwise, and one bad index spoils the whole call. *)
Theorem C25_select_array : forall A (values : list A) l,
  (Forall (fun i => (0 <= i < Z.of_nat (length values))%Z) l ->
     exists vs, selector_select values (IArray l) = Ok (Arr (map Atom vs)) /\
       Forall2 (fun i v => nth_error values (Z.to_nat i) = Some v) l vs) /\
  (Exists (fun i => ~ (0 <= i < Z.of_nat (length values))%Z) l -> selector_select values (IArray l) = Err IndexError).
Proof.
  intros A values l. unfold selector_select. split; intros H.
  - assert (E : existsb (out_of_bounds (length values)) l = false).
    { apply not_true_iff_false. intros E. apply existsb_exists in E. destruct E as (i & I1 & I2).
      rewrite Forall_forall in H. apply H in I1. unfold out_of_bounds in I2. apply orb_true_iff in I2.
      destruct I2 as [I2|I2]; [apply Z.ltb_lt in I2|apply Z.leb_le in I2]; lia. }
    rewrite E. clear E. induction H as [|i l Hi _ IH].
    + exists []. split; auto.
    + destruct IH as (vs & E1 & E2). destruct (zget_in _ _ _ Hi) as (v & E & N). exists (v :: vs). split.
      * simpl. rewrite E. simpl. destruct (zget_all values l) as [ws|]; simpl in *; [|discriminate].
        injection E1 as E1. now rewrite E1.
      * constructor; auto.
  - assert (E : existsb (out_of_bounds (length values)) l = true).
    { apply Exists_exists in H. destruct H as (i & I1 & I2). apply existsb_exists. exists i. split; auto.
      unfold out_of_bounds. destruct (Z.ltb_spec i 0); simpl; auto. apply Z.leb_le. lia. }
    now rewrite E.
Qed.
Theorem C25_binary : forall p p' draws v,
  ((p < 0 \/ 1 < p)%Q -> binary_make p = Err ValueError) /\
  ((0 <= p <= 1)%Q -> binary_make p = Ok p) /\
  (binary_make p = Ok p' -> binary_compute p' draws = v ->
     Forall2 (fun d b => b = true <-> (d < p)%Q) draws (elems v)).
Proof.
  intros p p' draws v.
  assert (B : forall a b, Qle_bool a b = false <-> (b < a)%Q).
  { intros a b. rewrite <- not_true_iff_false, Qle_bool_iff. split; [apply Qnot_le_lt|apply Qlt_not_le]. }
  assert (Hq : forall d, qlt d p = true <-> (d < p)%Q).
  { intros d. unfold qlt. rewrite negb_true_iff. apply B. }
  unfold binary_make. split; [|split].
  - intros [H|H]; apply B in H; rewrite H; simpl; auto. now rewrite orb_true_r.
  - intros [H1 H2]. apply Qle_bool_iff in H1, H2. now rewrite H1, H2.
  - intros HM HC. destruct (negb (Qle_bool 0 p) || negb (Qle_bool p 1))%bool; inversion HM; subst p'.
    assert (G : elems v = map (fun d => qlt d p) draws).
    { subst v. destruct draws as [|d [|d2 ds]]; try reflexivity. unfold binary_compute.
      rewrite <- (map_map (fun d => qlt d p) Atom). apply elems_Arr. }
    rewrite G. clear HC G. induction draws; simpl; constructor; auto.
Qed.
Example C25_applies :
  selector_select [5; 6; 7]%Z (IScalar 2) = Ok (Atom 7)%Z /\ selector_select [5; 6; 7]%Z (IScalar (-1)) = Err IndexError /\
  selector_select [5; 6; 7]%Z (IArray [0; 2]%Z) = Ok (Arr [Atom 5; Atom 7])%Z /\
  selector_select [5; 6; 7]%Z (IArray [0; 3]%Z) = Err IndexError /\
  binary_make (1 # 2) = Ok (1 # 2) /\ binary_compute (1 # 2) [1 # 4; 1 # 2] = Arr [Atom true; Atom false].
Proof. repeat split. Qed.

(** ** C64: GivenValueSampler *)
(** Every returned sample is the given value at the drawn index. *)
Theorem C64_given_values : forall A (values : list A) n inds,
  1 <= n -> valid_draws (length values) n inds ->
  exists v, gvs_compute values n inds = Ok v /\ reads_rows values inds v.
Proof.
  intros A values n inds Hn [D1 D2]. destruct (take_inds_ok _ _ _ D2) as (vs & E & L).
  destruct (squeeze_ok _ n vs) as (v & S1 & S2); [congruence|auto|]. exists v. unfold gvs_compute. rewrite E.
  simpl. split; auto. unfold reads_rows. rewrite S2. now apply take_inds_rows.
Qed.
Lemma qsum_scale : forall l c, (qsum (map (fun w => w / c) l) == qsum l / c)%Q.
Proof.
  induction l as [|x l IH]; intros c; simpl.
  - unfold Qdiv. now rewrite Qmult_0_l.
  - rewrite IH. unfold Qdiv. now rewrite Qmult_plus_distr_l.
Qed.
(** The weights: wrong number -> ValueError; otherwise they are rescaled by a common factor to sum 1. *)
Theorem C64_weights : forall A (values : list A) arr ws r c,
  values <> [] -> gvs_make values (Some (false, arr, ws)) = (r, c) ->
  (length ws <> length values -> r = Err ValueError) /\
  (length ws = length values -> ~ (qsum ws == 0)%Q ->
     exists s ws', r = Ok s /\ vs_n s = length values /\ vs_weights s = Some ws' /\ (qsum ws' == 1)%Q /\
       Forall2 (fun w w' => (w' * qsum ws == w)%Q) ws ws').
Proof.
  intros A values arr ws r c HV H. unfold gvs_make in H. destruct values as [|v0 vl]; [congruence|].
  destruct (Nat.eqb_spec (length ws) (length (v0 :: vl))); cbn [negb] in H; inversion H; subst; split; intros HL; try lia; auto.
  intros HS. do 2 eexists. split; [reflexivity|]. cbn [vs_n vs_weights]. split; auto. split; [reflexivity|]. split.
  - rewrite qsum_scale. unfold Qdiv. now apply Qmult_inv_r.
  - clear - HS. set (c := qsum ws) in *. clearbody c. induction ws; simpl; constructor; auto.
    unfold Qdiv. rewrite <- Qmult_assoc, (Qmult_comm (/ c)), Qmult_inv_r by auto. now rewrite Qmult_1_r.
Qed.
Theorem C64_no_values : forall A w, fst (@gvs_make A [] w) = Err ValueError.
Proof. intros A [w|]; reflexivity. Qed.
(** Findings: integer weights cannot be used, and a float array passed as weights is
    overwritten with the normalised weights. *)
Theorem C64_integer_weights_refuted : exists (ws : list Q),
  length ws = 2 /\ (qsum ws == 4)%Q /\ fst (gvs_make ["a"; "b"]%string (Some (true, true, ws))) = Err TypeError.
Proof. exists [1; 3]%Q. repeat split. Qed.
Theorem C64_caller_weights_unchanged_refuted : exists (ws ws' : list Q),
  snd (gvs_make ["a"; "b"]%string (Some (false, true, ws))) = Some ws' /\ ~ Forall2 Qeq ws ws'.
Proof.
  exists [1; 3]%Q. eexists. split; [reflexivity|]. intros H. inversion H as [|? ? ? ? X _]; subst. discriminate X.
Qed.
Example C64_applies : exists s, fst (gvs_make ["a"; "b"]%string (Some (false, false, [1; 3]%Q))) = Ok s /\
  gvs_compute ["a"; "b"]%string 3 [1; 0; 1] = Ok (Arr [Atom "b"; Atom "a"; Atom "b"]%string).
Proof. eexists. split; reflexivity. Qed.

(** ** C26 *)
Section C26.
Context {C : Type} (zero : C) (observed : C -> C -> bool).
(** The sampler's state after [k] rounds. *)
Definition after (n max_it : nat) (draw : nat -> nat -> list C * list C) (k : nat) : rej :=
  rej_loop observed k max_it draw (rej_init zero n).
Definition point (s : @rej C) (i : nat) (p : C * C) : Prop :=
  nth_error (rj_ra s) i = Some (fst p) /\ nth_error (rj_dec s) i = Some (snd p).
(** The draws have the requested size. *)
Definition draws_ok (draw : nat -> nat -> list C * list C) : Prop :=
  forall k m, length (fst (draw k m)) = m /\ length (snd (draw k m)) = m.

Lemma scatter_length : forall T (m : list bool) (x new : list T), length (scatter_missing m x new) = length x.
Proof. induction m as [|[] m IH]; intros [|v x] new; simpl; auto. destruct new; simpl; auto. Qed.
Lemma scatter_keep : forall T (m : list bool) (x new : list T) i, nth_error m i = Some true ->
  nth_error (scatter_missing m x new) i = nth_error x i.
Proof.
  induction m as [|b m IH]; intros x new i H; [destruct i; discriminate|].
  destruct x as [|v x]; [destruct b; reflexivity|]. destruct i as [|i]; simpl in H.
  - inversion H. reflexivity.
  - destruct b; simpl; auto. destruct new; simpl; auto.
Qed.
Lemma scatter_new : forall T (m : list bool) (x new : list T) i v, length m = length x -> length new = count_false m ->
  nth_error m i = Some false -> nth_error (scatter_missing m x new) i = Some v -> In v new.
Proof.
  induction m as [|b m IH]; intros x new i v HL HN H HV; [destruct i; discriminate|].
  destruct x as [|w x]; [discriminate|]. destruct b.
  - unfold count_false in *; simpl in *. destruct i; simpl in *; [discriminate|]. eapply IH; eauto.
  - unfold count_false in *; simpl in HN. destruct new as [|y new]; [discriminate|]. simpl in *.
    destruct i; simpl in *; [inversion HV; auto|]. right. eapply IH; eauto.
Qed.

(** The invariant of the loop. *)
Definition rinv (n : nat) (s : rej) : Prop :=
  length (rj_ra s) = n /\ length (rj_dec s) = n /\ length (rj_mask s) = n /\ rj_missing s = count_false (rj_mask s) /\
  forall i p, nth_error (rj_mask s) i = Some true -> point s i p -> observed (fst p) (snd p) = true.
Definition rinv1 (s : rej) : Prop :=
  rj_mask s = map (fun p => observed (fst p) (snd p)) (combine (rj_ra s) (rj_dec s)).

Lemma nth_combine : forall S T (a : list S) (b : list T) i x y, nth_error a i = Some x -> nth_error b i = Some y ->
  nth_error (combine a b) i = Some (x, y).
Proof. induction a; intros [|y' b] [|i] x y; simpl; intros; try discriminate. congruence. auto. Qed.
Lemma rinv1_point : forall s i p, rinv1 s -> point s i p -> nth_error (rj_mask s) i = Some (observed (fst p) (snd p)).
Proof.
  intros s i [a b] H [P1 P2]. rewrite H. erewrite map_nth_error; [|eapply nth_combine; eauto]. reflexivity.
Qed.
Lemma body_inv : forall n s a b, rinv n s -> rinv n (rej_body observed s a b) /\ rinv1 (rej_body observed s a b).
Proof.
  intros n s a b (I1 & I2 & I3 & I4 & I5).
  assert (R1 : rinv1 (rej_body observed s a b)) by reflexivity. split; auto.
  unfold rej_body. unfold rinv. cbn [rj_ra rj_dec rj_mask rj_missing]. rewrite !scatter_length.
  split; [|split; [|split; [|split]]]; auto.
  - rewrite map_length, combine_length, !scatter_length. lia.
  - intros i p Hm Hp. pose proof (rinv1_point _ _ _ R1 Hp) as Q. cbn [rej_body rj_mask] in Q. congruence.
Qed.
Lemma init_inv : forall n, rinv n (rej_init zero n).
Proof.
  intros n. unfold rinv, rej_init. cbn [rj_ra rj_dec rj_mask rj_missing]. rewrite !repeat_length. repeat split; auto.
  - unfold count_false. induction n; simpl; auto.
  - intros i p H. exfalso. clear - H. revert i H. induction n; intros [|i] H; simpl in H; try discriminate. eauto.
Qed.
Lemma rej_loop_inv : forall k n mi draw s, rinv n s -> rinv n (rej_loop observed k mi draw s).
Proof.
  induction k; intros n mi draw s H; simpl; auto.
  destruct ((0 <? rj_missing s) && (rj_iter s <=? mi))%bool; auto. apply IHk, body_inv, H.
Qed.
Lemma rej_loop_S : forall k mi draw s,
  rej_loop observed (S k) mi draw s =
  (let t := rej_loop observed k mi draw s in
   if ((0 <? rj_missing t) && (rj_iter t <=? mi))%bool
   then rej_body observed t (fst (draw (rj_iter t) (rj_missing t))) (snd (draw (rj_iter t) (rj_missing t))) else t).
Proof.
  induction k; intros mi draw s.
  - simpl. destruct ((0 <? rj_missing s) && (rj_iter s <=? mi))%bool; auto.
  - remember (S k) as j. simpl. destruct ((0 <? rj_missing s) && (rj_iter s <=? mi))%bool eqn:E.
    + subst j. rewrite IHk. simpl. rewrite E. reflexivity.
    + subst j. simpl. rewrite E. cbv zeta. rewrite E. reflexivity.
Qed.
Lemma rej_loop_iter : forall k mi draw s,
  let t := rej_loop observed k mi draw s in
  rj_iter t = rj_iter s + k \/ rj_missing t = 0 \/ mi < rj_iter t.
Proof.
  induction k; intros mi draw s.
  - simpl. lia.
  - cbv zeta. rewrite rej_loop_S. cbv zeta. specialize (IHk mi draw s). cbv zeta in IHk.
    set (t := rej_loop observed k mi draw s) in *.
    destruct (Nat.ltb_spec 0 (rj_missing t)); simpl; [|lia].
    destruct (Nat.leb_spec (rj_iter t) mi); simpl; [|lia]. cbn [rej_body rj_iter]. destruct IHk as [Q|[Q|Q]]; lia.
Qed.
Lemma count_false_0 : forall m i b, count_false m = 0 -> nth_error m i = Some b -> b = true.
Proof.
  induction m as [|x m IH]; intros [|i] b H HN; simpl in HN; try discriminate; unfold count_false in H; simpl in H.
  - inversion HN; subst. destruct b; auto; discriminate.
  - destruct x; simpl in H; [|discriminate]. eapply IH; eauto.
Qed.

(** The result has [n] positions, and is the state of the last round. *)
Theorem C26_result : forall n mi draw, 1 <= n ->
  exists ra dec, rej_compute zero observed n mi draw = Ok (ra, dec) /\
    elems ra = rj_ra (after n mi draw (S mi)) /\ elems dec = rj_dec (after n mi draw (S mi)) /\
    length (elems ra) = n /\ length (elems dec) = n.
Proof.
  intros n mi draw Hn. unfold rej_compute, after. set (s := rej_loop observed (S mi) mi draw (rej_init zero n)).
  destruct (rej_loop_inv (S mi) n mi draw _ (init_inv n)) as (I1 & I2 & _). fold s in I1, I2.
  destruct (squeeze_ok _ n (rj_ra s) I1 Hn) as (ra & E1 & E2). destruct (squeeze_ok _ n (rj_dec s) I2 Hn) as (dec & E3 & E4).
  exists ra, dec. cbv zeta. rewrite E1. simpl. rewrite E3. simpl. rewrite E2, E4. auto.
Qed.
(** The loop makes at most [max_iterations] rounds; if it stopped earlier, every returned
    position is in the survey. *)
Theorem C26_early_stop_all_inside : forall n mi draw, draws_ok draw ->
  let s := after n mi draw (S mi) in
  rj_iter s - 1 <= mi /\
  (rj_iter s - 1 < mi -> forall i p, point s i p -> observed (fst p) (snd p) = true).
Proof.
  intros n mi draw HD s.
  assert (B : forall k, rj_iter (after n mi draw k) <= S mi).
  { induction k; [simpl; lia|]. unfold after in *. rewrite rej_loop_S. cbv zeta.
    set (t := rej_loop observed k mi draw (rej_init zero n)) in *.
    destruct (Nat.ltb_spec 0 (rj_missing t)); simpl; auto. destruct (Nat.leb_spec (rj_iter t) mi); simpl; auto. lia. }
  split; [specialize (B (S mi)); fold s in B; lia|]. intros HL i p HP.
  destruct (rej_loop_iter (S mi) mi draw (rej_init zero n)) as [Q|[Q|Q]]; fold (after n mi draw (S mi)) in Q; fold s in Q; [|
   |lia].
  - cbn [rej_init rj_iter] in Q. lia.
  - destruct (rej_loop_inv (S mi) n mi draw _ (init_inv n)) as (I1 & I2 & I3 & I4 & I5).
    fold (after n mi draw (S mi)) in I1, I2, I3, I4, I5. fold s in I1, I2, I3, I4, I5.
    apply I5 with i; auto. destruct (nth_error (rj_mask s) i) as [b|] eqn:E.
    + rewrite Q in I4. symmetry in I4. now rewrite (count_false_0 _ _ _ I4 E).
    + apply nth_error_None in E. destruct HP as [HP _].
      assert (nth_error (rj_ra s) i <> None) by congruence. apply nth_error_Some in H. lia.
Qed.
(** A position found inside the survey in some round is what is returned. *)
Theorem C26_accepted_kept : forall n mi draw k1 k2 i p, draws_ok draw -> 1 <= k1 -> k1 <= k2 ->
  point (after n mi draw k1) i p -> observed (fst p) (snd p) = true -> point (after n mi draw k2) i p.
Proof.
  intros n mi draw k1 k2 i p HD H1 H2 HP HO.
  assert (G : forall k, 1 <= mi -> rinv1 (after n mi draw (S k)) \/ after n mi draw (S k) = rej_init zero n).
  { intros k Hmi. induction k.
    - unfold after. rewrite rej_loop_S. cbv zeta. destruct (_ && _)%bool; auto. left. eapply body_inv, init_inv.
    - unfold after in *. rewrite rej_loop_S. cbv zeta. destruct (_ && _)%bool; auto.
      left. eapply body_inv, rej_loop_inv, init_inv. }
  induction H2 as [|k2 H2 IH]; auto.
  unfold after in *. rewrite rej_loop_S. cbv zeta. set (t := rej_loop observed k2 mi draw (rej_init zero n)) in *.
  destruct ((0 <? rj_missing t) && (rj_iter t <=? mi))%bool eqn:E; auto.
  apply andb_true_iff in E. destruct E as [E1 E2]. apply Nat.ltb_lt in E1. apply Nat.leb_le in E2.
  destruct k2 as [|k2]; [lia|].
  assert (Hmi : 1 <= mi).
  { assert (G1 : forall j, 1 <= rj_iter (rej_loop observed j mi draw (rej_init zero n))).
    { induction j; [cbn; lia|]. rewrite rej_loop_S. cbv zeta. destruct (_ && _)%bool; cbn [rej_body rj_iter]; lia. }
    specialize (G1 (S k2)). fold t in G1. lia. }
  assert (R : rinv1 t).
  { destruct (G k2 Hmi) as [Q|Q]; auto. exfalso. fold t in Q.
    assert (0 < rj_missing (rej_init zero n)) by congruence. cbn in H.
    assert (rj_iter t = 1) by (rewrite Q; reflexivity).
    destruct (rej_loop_iter (S k2) mi draw (rej_init zero n)) as [X|[X|X]]; fold t in X; cbv zeta in X; cbn [rej_init rj_iter] in X; lia. }
  pose proof (rinv1_point _ _ _ R IH) as M. rewrite HO in M. destruct IH as [P1 P2].
  unfold rej_body. split; cbn [rj_ra rj_dec]; rewrite scatter_keep; auto.
Qed.
(** Every position comes from the random draws (none is left at its initial value). *)
Theorem C26_positions_are_draws : forall n mi draw k i p, draws_ok draw -> 1 <= mi -> 1 <= k ->
  point (after n mi draw k) i p ->
  exists r m, In (fst p) (fst (draw r m)) /\ In (snd p) (snd (draw r m)).
Proof.
  intros n mi draw k i p HD Hmi Hk. revert p. destruct k as [|k]; [lia|]. clear Hk.
  assert (S0 : forall t a b p m, rinv n t -> draw (rj_iter t) (rj_missing t) = (a, b) ->
      point (rej_body observed t a b) i p -> nth_error (rj_mask t) i = Some m ->
      (m = true /\ point t i p) \/ (In (fst p) a /\ In (snd p) b)).
  { intros t a b p m (I1 & I2 & I3 & I4 & _) ED [P1 P2] Hm. cbn [rej_body rj_ra rj_dec] in P1, P2.
    destruct (HD (rj_iter t) (rj_missing t)) as [L1 L2]. rewrite ED in L1, L2. cbn [fst snd] in L1, L2.
    destruct m.
    - left. rewrite scatter_keep in P1, P2 by auto. split; auto. split; auto.
    - right. split; [eapply (scatter_new _ _ (rj_ra t) a i)|eapply (scatter_new _ _ (rj_dec t) b i)]; eauto; congruence. }
  assert (RB : forall t a b m p, rinv n t -> draw (rj_iter t) (rj_missing t) = (a, b) ->
      point (rej_body observed t a b) i p -> m = nth_error (rj_mask t) i -> m <> None).
  { intros t a b m p (I1 & I2 & I3 & _) _ [P1 _] -> E. cbn [rej_body rj_ra] in P1. apply nth_error_None in E.
    assert (nth_error (scatter_missing (rj_mask t) (rj_ra t) a) i <> None) by congruence.
    apply nth_error_Some in H. rewrite scatter_length in H. lia. }
  induction k as [|k IH]; intros p HP; unfold after in *; rewrite rej_loop_S in HP; cbv zeta in HP.
  - cbn [rej_loop] in HP. cbn [rej_init rj_missing rj_iter] in HP.
    replace (1 <=? mi) with true in HP by (symmetry; apply Nat.leb_le; auto).
    destruct (Nat.ltb_spec 0 n) as [Hn|Hn]; cbn [andb] in HP.
    + destruct (draw 1 n) as [a b] eqn:ED. cbn [fst snd] in HP.
      destruct (nth_error (rj_mask (rej_init zero n)) i) as [m|] eqn:EM.
      * destruct (S0 (rej_init zero n) a b p m (init_inv n) ED HP EM) as [[-> _]|[Q1 Q2]].
        -- exfalso. cbn [rej_init rj_mask] in EM. clear - EM. revert i EM. induction n; intros [|i] EM; simpl in EM; try discriminate. eauto.
        -- exists 1, n. rewrite ED. auto.
      * exfalso. exact (RB _ _ _ _ _ (init_inv n) ED HP eq_refl EM).
    + exfalso. destruct n; [|lia]. destruct HP as [HP _]. destruct i; discriminate.
  - set (t := rej_loop observed (S k) mi draw (rej_init zero n)) in *.
    destruct ((0 <? rj_missing t) && (rj_iter t <=? mi))%bool; [|auto].
    assert (RT : rinv n t) by apply rej_loop_inv, init_inv.
    destruct (draw (rj_iter t) (rj_missing t)) as [a b] eqn:ED. cbn [fst snd] in HP.
    destruct (nth_error (rj_mask t) i) as [m|] eqn:EM.
    + destruct (S0 t a b p m RT ED HP EM) as [[_ Q]|[Q1 Q2]]; [auto|].
      exists (rj_iter t), (rj_missing t). rewrite ED. auto.
    + exfalso. exact (RB _ _ _ _ _ RT ED HP eq_refl EM).
Qed.
End C26.
(** The documented limitation: when the rounds run out, positions outside the survey are returned. *)
Theorem C26_always_inside_refuted : exists (draw : nat -> nat -> list Z * list Z) (observed : Z -> Z -> bool) ra dec,
  draws_ok draw /\ rej_compute 0%Z observed 2 3 draw = Ok (ra, dec) /\
  existsb (fun p => negb (observed (fst p) (snd p))) (combine (elems ra) (elems dec)) = true /\
  (exists x y, observed x y = true).
Proof.
  exists (fun k m => (repeat 7%Z m, repeat (Z.of_nat k) m)), (fun a b => (b =? 9)%Z). do 2 eexists.
  split; [intros k m; cbn [fst snd]; now rewrite !repeat_length|]. split; [reflexivity|]. split; [reflexivity|].
  exists 0%Z, 9%Z. reflexivity.
Qed.
Definition ex_draw (k m : nat) : list Z * list Z := (map Z.of_nat (seq (10 * k) m), repeat (Z.of_nat k) m).
Example C26_applies :
  draws_ok ex_draw /\
  rej_compute 0%Z (fun a _ => Z.even a) 3 5 ex_draw = Ok (Arr [Atom 10; Atom 20; Atom 12]%Z, Arr [Atom 1; Atom 2; Atom 1]%Z).
Proof.
  split; [|reflexivity]. intros k m. unfold ex_draw; cbn [fst snd]. now rewrite map_length, seq_length, repeat_length.
Qed.

(** ** C27 *)
Open Scope Z_scope.
Lemma pow4 : forall d, 0 <= d -> 2 ^ (2 * d) = 4 ^ d.
Proof. intros d H. rewrite Z.pow_mul_r by lia. reflexivity. Qed.
(** A depth-29 pixel lies in cell [pixel] of depth [depth] iff dropping the last
    [2*(29-depth)] bits gives [pixel]. *)
Definition descendant (depth pixel p29 : Z) : Prop := p29 / 4 ^ (29 - depth) = pixel.
Lemma moc_closed : forall depth d pixels, moc_make depth pixels = Ok d ->
  let s := 4 ^ (29 - depth) in
  0 < s /\ s * 4 ^ depth = 4 ^ 29 /\ moc_offset_range depth = s /\
  forall pixel offset, 0 <= pixel < 12 * 4 ^ depth -> 0 <= offset < s ->
    moc_pixel29 depth pixel offset = pixel * s + offset /\ pixel * s + offset < 12 * 4 ^ 29.
Proof.
  intros depth d pixels HM. unfold moc_make in HM.
  destruct ((depth <? 2) || (29 <? depth))%bool eqn:E; [discriminate|]. apply orb_false_iff in E.
  destruct E as [E1 E2]. apply Z.ltb_ge in E1, E2. cbv zeta.
  set (s := 4 ^ (29 - depth)). set (t := 4 ^ depth).
  assert (ST : s * t = 4 ^ 29) by (unfold s, t; rewrite <- Z.pow_add_r by lia; f_equal; lia).
  assert (Hs : 0 < s) by (unfold s; apply Z.pow_pos_nonneg; lia).
  assert (Ht : 0 < t) by (unfold t; apply Z.pow_pos_nonneg; lia).
  assert (B : 4 ^ 29 * 12 < 2 ^ 64) by (vm_compute; reflexivity).
  assert (SB : s <= 4 ^ 29) by nia. assert (TB : t <= 4 ^ 29) by nia.
  split; auto. split; auto. unfold moc_offset_range, moc_pixel29, u64. split.
  - rewrite Z.shiftl_mul_pow2, pow4 by lia. rewrite Z.mul_1_l. fold s. apply Z.mod_small. nia.
  - intros pixel offset HP HO. rewrite Z.shiftl_mul_pow2, pow4 by lia. fold s.
    assert (U : pixel * s + offset < 12 * 4 ^ 29) by nia.
    rewrite (Z.mod_small pixel) by nia. rewrite (Z.mod_small (pixel * s)) by nia.
    rewrite Z.mod_small by nia. auto.
Qed.
Theorem C27_inside_cell : forall depth d pixels pixel offset,
  moc_make depth pixels = Ok d -> 0 <= pixel < 12 * 4 ^ depth -> 0 <= offset < moc_offset_range depth ->
  descendant depth pixel (moc_pixel29 depth pixel offset) /\
  0 <= moc_pixel29 depth pixel offset < 12 * 4 ^ 29.
Proof.
  intros depth d pixels pixel offset HM HP HO. destruct (moc_closed _ _ _ HM) as (Hs & ST & ER & CL).
  rewrite ER in HO. destruct (CL pixel offset HP HO) as [E U]. unfold descendant. rewrite E. split; [|nia].
  rewrite Z.add_comm, Z.div_add by lia. rewrite Z.div_small by lia. lia.
Qed.
(** Every descendant of the chosen cell is drawn by exactly one offset. *)
Theorem C27_every_descendant_once : forall depth d pixels pixel p29,
  moc_make depth pixels = Ok d -> 0 <= pixel < 12 * 4 ^ depth -> 0 <= p29 -> descendant depth pixel p29 ->
  exists offset, (0 <= offset < moc_offset_range depth /\ moc_pixel29 depth pixel offset = p29) /\
    forall o', 0 <= o' < moc_offset_range depth -> moc_pixel29 depth pixel o' = p29 -> o' = offset.
Proof.
  intros depth d pixels pixel p29 HM HP H0 HD. destruct (moc_closed _ _ _ HM) as (Hs & ST & ER & CL).
  unfold descendant in HD. rewrite ER. set (s := 4 ^ (29 - depth)) in *.
  pose proof (Z.div_mod p29 s) as DM. pose proof (Z.mod_pos_bound p29 s Hs) as MB.
  exists (p29 mod s). split.
  - split; auto. destruct (CL pixel (p29 mod s) HP MB) as [-> _]. rewrite HD in DM. lia.
  - intros o' HO' EQ. destruct (CL pixel o' HP HO') as [E _]. rewrite E in EQ. rewrite HD in DM. lia.
Qed.
Theorem C27_depth_checked : forall depth pixels, depth < 2 \/ 29 < depth -> moc_make depth pixels = Err ValueError.
Proof.
  intros depth pixels H. unfold moc_make. destruct (Z.ltb_spec depth 2); auto. destruct (Z.ltb_spec 29 depth); auto. lia.
Qed.
Example C27_applies : moc_make 12 [7] = Ok (12, [7]) /\ moc_offset_range 12 = 17179869184 /\
  moc_pixel29 12 7 123 = 120259084411 /\ descendant 12 7 120259084411.
Proof. repeat split. Qed.

Print Assumptions C23_in_order.
Print Assumptions C24_rows_aligned.
Print Assumptions C25_select_array.
Print Assumptions C26_accepted_kept.
Print Assumptions C27_every_descendant_once.
Print Assumptions C64_weights.
