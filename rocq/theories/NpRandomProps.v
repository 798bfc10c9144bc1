(** NumpyRandomFunc (C77). *)
From Coq Require Import ZArith String List Bool Arith Lia.
From Verif Require Import Base BaseFacts GraphStateModel NpRandomModel.
Import ListNotations.
Open Scope list_scope.
Open Scope nat_scope.

Section NpRandom.
Context {A : Type} (zero : A) (draw : gen (A := A) -> call (A := A) -> list nat -> dict A -> A) (known : string -> bool).
Notation value := (GraphStateModel.value A).
Notation compute := (np_compute zero draw).

(** An index of an array of the given shape. *)
Definition in_range (idx sh : list nat) : Prop := Forall2 lt idx sh.

Lemma tabulate_shape : forall sh (f : list nat -> A), has_shape sh (tabulate sh f) = true.
Proof.
  induction sh as [| n sh IH]; intros f; simpl; [reflexivity|]. rewrite map_length, seq_length, Nat.eqb_refl. simpl.
  apply forallb_forall. intros x Hx. apply in_map_iff in Hx as [i [<- _]]. apply IH.
Qed.
Lemma tabulate_get : forall sh (f : list nat -> A) idx, in_range idx sh -> vget zero (tabulate sh f) idx = f idx.
Proof.
  induction sh as [| n sh IH]; intros f idx H; inversion H as [| i d idx' sh' L H']; subst; simpl; [reflexivity|].
  rewrite nth_error_map, (nth_error_nth' (seq 0 n) 0) by (rewrite seq_length; auto). simpl. rewrite seq_nth by auto. simpl. exact (IH (fun j => f (i :: j)) idx' H').
Qed.
Lemma has_shape_of : forall sh (v : value), Forall (fun d => d <> 0) sh -> has_shape sh v = true -> shape_of v = sh.
Proof.
  induction sh as [| n sh IH]; intros v P H; destruct v as [a | l]; simpl in *; try discriminate; [reflexivity|].
  apply andb_true_iff in H as [L F]. apply Nat.eqb_eq in L. inversion P as [| ? ? P1 P2]; subst.
  destruct l as [| x l]; [simpl in P1; congruence|]. simpl. f_equal. apply IH; [auto|]. simpl in F. apply andb_true_iff in F. tauto.
Qed.

(** ** The constructor *)
Definition size_ok (s : size_arg) : Prop :=
  match s with SNone => True | SInt z => (0 < z)%Z | STuple l => Forall (fun z => (0 < z)%Z) l end.
Theorem C77_make : forall name size seed fixed,
  ((exists nd, np_make (A := A) known name size seed fixed = Ok nd) <-> name <> "choice"%string /\ size_ok size /\ known name = true) /\
  (forall e, np_make (A := A) known name size seed fixed = Err e -> e = ValueError) /\
  (forall nd, np_make (A := A) known name size seed fixed = Ok nd -> nr_name nd = name /\ nr_own nd = default_rng seed /\ nr_fixed nd = fixed /\
     nr_dims nd = match size with SNone => [] | SInt z => if (z =? 1)%Z then [] else [Z.to_nat z] | STuple l => map Z.to_nat l end /\
     Forall (fun d => 0 < d) (nr_dims nd)).
Proof.
  intros name size seed fixed. unfold np_make.
  destruct (String.eqb name "choice") eqn:C.
  { apply String.eqb_eq in C. split; [| split]; [split; [intros [nd H]; discriminate | tauto] | intros; congruence | intros; discriminate]. }
  apply String.eqb_neq in C.
  set (dims := match size with SNone => _ | SInt z => _ | STuple l => _ end).
  assert (D : (size_ok size /\ dims = Some (match size with SNone => [] | SInt z => if (z =? 1)%Z then [] else [Z.to_nat z] | STuple l => map Z.to_nat l end)
               /\ (forall d, dims = Some d -> Forall (fun d => 0 < d) d)) \/ (~ size_ok size /\ dims = None)).
  { subst dims. destruct size as [| z | l]; simpl.
    - left. repeat split; auto. intros d H. injection H as <-. constructor.
    - destruct (z =? 1)%Z eqn:E1.
      + apply Z.eqb_eq in E1. left. repeat split; [lia|]. intros d H. injection H as <-. constructor.
      + destruct (z <=? 0)%Z eqn:E2; [apply Z.leb_le in E2; right; split; [lia | auto] |]. apply Z.leb_gt in E2. left. repeat split; [lia|].
        intros d H. injection H as <-. constructor; [lia | constructor].
    - destruct (existsb (fun z => (z <=? 0)%Z) l) eqn:E.
      + right. split; [|auto]. apply existsb_exists in E as [z [I Z0]]. apply Z.leb_le in Z0. intros F. eapply Forall_forall in F; [|exact I]. simpl in F. lia.
      + assert (P : forall z, In z l -> (0 < z)%Z).
        { intros z I. destruct (Z_lt_le_dec 0 z) as [|L]; [auto|]. exfalso.
          assert (existsb (fun z => (z <=? 0)%Z) l = true) by (apply existsb_exists; exists z; split; [auto | apply Z.leb_le; auto]). congruence. }
        left. repeat split; [apply Forall_forall; exact P|]. intros d H. injection H as <-. apply Forall_forall. intros x Hx.
        apply in_map_iff in Hx as [z [<- I]]. specialize (P z I). lia. }
  destruct D as [[S0 [E F]] | [S0 E]].
  - destruct dims as [d|]; [|discriminate]. injection E as ->. destruct (known name) eqn:K.
    + split; [| split].
      * split; [auto | intros; eexists; reflexivity].
      * intros; discriminate.
      * intros nd H. injection H as <-. simpl. repeat split. apply F. reflexivity.
    + split; [| split]; [split; [intros [nd H]; discriminate | intros [_ [_ H]]; discriminate] | intros; congruence | intros; discriminate].
  - rewrite E. split; [| split]; [split; [intros [nd H]; discriminate | tauto] | intros; congruence | intros; discriminate].
Qed.

(** ** The values *)
(** The state afterwards: which generator was used, with which bound arguments. *)
Definition used (nd : np_node (A := A)) (rng : option (gen (A := A))) : gen := match rng with Some g => g | None => nr_own nd end.
Definition asked (n : nat) (dims : list nat) : option (list nat) := match n :: dims with [1] => None | _ => Some (n :: dims) end.

Lemma compute_eq : forall nd n a rng,
  compute nd n a rng =
    let a' := match rng with Some _ => a | None => with_fixed (nr_fixed nd) a end in
    let (r, g) := np_call zero draw (used nd rng) (nr_name nd) a' (asked n (nr_dims nd)) in
    match rng with
    | None => (r, mkNp (nr_name nd) (nr_dims nd) g (nr_fixed nd), None)
    | Some _ => (r, nd, Some g)
    end.
Proof. intros. unfold np_compute, asked, used. destruct rng; cbv zeta; destruct (np_call _ _ _ _ _ _); reflexivity. Qed.

(** One value per sample (the default), several samples: value i is drawn with the parameters of sample i. *)
Lemma fits_one : forall n, fits [n] [n] = true.
Proof. intros. unfold fits. simpl. rewrite Nat.eqb_refl, orb_true_r. reflexivity. Qed.
Lemma stored_vals : forall n (ps st : args (A := A)), 1 < n -> stored n ps = Ok st ->
  Forall (fun kv => match snd kv with Atom _ => True | Arr l => Forall (fun v => match v with Atom _ => True | Arr _ => False end) l end) ps ->
  Forall (fun kv => exists l, snd kv = Arr (map Atom l) /\ length l = n) st.
Proof.
  induction ps as [| [k v] ps IH]; intros st N H F; simpl in H; [injection H as <-; constructor|].
  inversion F as [| ? ? F1 F2]; subst. simpl in F1.
  destruct (store_value n v) as [w|] eqn:W; [|discriminate]. simpl in H.
  destruct (stored n ps) as [r|] eqn:Q; [|discriminate]. simpl in H. injection H as <-.
  constructor; [| apply IH; auto]. simpl. unfold store_value in W. destruct (n =? 1) eqn:E1; [apply Nat.eqb_eq in E1; lia|].
  destruct v as [a | l].
  - injection W as <-. exists (repeat a n). split; [f_equal; clear; induction n; simpl; congruence | apply repeat_length].
  - destruct (length l =? n) eqn:L; [|discriminate]. injection W as <-. apply Nat.eqb_eq in L.
    assert (X : exists xs, l = map Atom xs).
    { clear - F1. induction l as [| v l IH]; [exists []; reflexivity|]. inversion F1 as [| ? ? V F2]; subst. destruct v as [x|]; [|contradiction].
      destruct (IH F2) as [xs ->]. exists (x :: xs). reflexivity. }
    destruct X as [xs ->]. rewrite map_length in L. exists xs. auto.
Qed.
(** Parameters given as numbers or as one number per sample. *)
Definition plain_params (ps : args (A := A)) : Prop :=
  Forall (fun kv => match snd kv with Atom _ => True | Arr l => Forall (fun v => match v with Atom _ => True | Arr _ => False end) l end) ps.
(** The value of a parameter for sample i. *)
Definition of_sample (ps : args (A := A)) (i : nat) : dict A :=
  map (fun kv => (fst kv, match snd kv with Atom a => a | Arr l => match nth_error l i with Some (Atom a) => a | _ => zero end end)) ps.

Lemma rect_vec : forall l, 0 < length l -> has_shape (shape_of (Arr (map (@Atom A) l))) (Arr (map Atom l)) = true /\ shape_of (Arr (map (@Atom A) l)) = [length l].
Proof.
  intros [| x l] H; simpl in H; [lia|]. simpl. rewrite !map_length, Nat.eqb_refl. simpl. split; [|reflexivity].
  apply forallb_forall. intros y Hy. apply in_map_iff in Hy as [z [<- _]]. reflexivity.
Qed.
Lemma of_sample_stored : forall n (ps st : args (A := A)) i, 1 < n -> i < n -> stored n ps = Ok st -> of_sample st i = of_sample ps i.
Proof.
  induction ps as [| [k v] ps IH]; intros st i N I H; simpl in H; [injection H as <-; reflexivity|].
  destruct (store_value n v) as [w|] eqn:W; [|discriminate]. simpl in H.
  destruct (stored n ps) as [r|] eqn:Q; [|discriminate]. simpl in H. injection H as <-. simpl. f_equal; [| apply IH; auto]. f_equal.
  unfold store_value in W. destruct (n =? 1) eqn:E1; [apply Nat.eqb_eq in E1; lia|].
  destruct v as [a | l].
  - injection W as <-. rewrite (nth_error_nth' _ (Atom zero)) by (rewrite repeat_length; auto).
    replace (nth i (repeat (Atom a) n) (Atom zero)) with (@Atom A a); [reflexivity|].
    symmetry. apply (repeat_spec n). apply nth_In. rewrite repeat_length. auto.
  - destruct (length l =? n); [|discriminate]. injection W as <-. reflexivity.
Qed.
Lemma with_fixed_nil : forall a : args (A := A), NoDup (map fst a) -> with_fixed [] a = a.
Proof.
  intros a. unfold with_fixed.
  assert (G : forall (b d : args (A := A)), NoDup (map fst (d ++ b)) -> fold_left (fun d kv => dset (fst kv) (snd kv) d) b d = d ++ b).
  { induction b as [| [k v] b IH]; intros d N; simpl; [rewrite app_nil_r; reflexivity|].
    assert (E : dset k v d = d ++ [(k, v)]).
    { assert (K : ~ In k (map fst d)).
      { rewrite map_app in N. simpl in N. apply NoDup_remove_2 in N. intros I. apply N. apply in_or_app. auto. }
      clear - K. induction d as [| [k' v'] d IH]; simpl; [reflexivity|]. simpl in K.
      destruct (String.eqb k k') eqn:E; [apply String.eqb_eq in E; subst; tauto|]. f_equal. apply IH. tauto. }
    rewrite E, IH; rewrite <- app_assoc; simpl; auto. }
  intros N. apply (G a []). exact N.
Qed.
Lemma stored_keys : forall n (ps st : args (A := A)), stored n ps = Ok st -> map fst st = map fst ps.
Proof.
  induction ps as [| [k v] ps IH]; intros st H; simpl in H; [injection H as <-; reflexivity|].
  destruct (store_value n v) as [w|]; [|discriminate]. simpl in H. destruct (stored n ps) as [r|]; [|discriminate]. simpl in H. injection H as <-.
  simpl. f_equal. apply IH. reflexivity.
Qed.
Lemma eff_args : forall (nd : np_node (A := A)) (rng : option (gen (A := A))) (a : args (A := A)), nr_fixed nd = [] -> NoDup (map fst a) ->
  match rng with Some _ => a | None => with_fixed (nr_fixed nd) a end = a.
Proof. intros nd [g|] a H N; [reflexivity|]. rewrite H. apply with_fixed_nil; auto. Qed.

Theorem C77_per_sample : forall nd n ps st rng, nr_dims nd = [] -> nr_fixed nd = [] -> NoDup (map fst ps) -> 1 < n -> plain_params ps -> stored n ps = Ok st ->
  exists nd' rng' l, compute nd n st rng = (Ok (Arr (map Atom l)), nd', rng') /\ length l = n /\
  forall i, i < n -> nth_error l i = Some (draw (used nd rng) (mkCall (nr_name nd) st (Some [n])) [i] (of_sample ps i)).
Proof.
  intros nd n ps st rng HD HF ND N HP HS.
  pose proof (stored_vals n ps st N HS HP) as SV. pose proof (stored_keys n ps st HS) as SK.
  rewrite compute_eq. cbv zeta. rewrite (eff_args nd rng st HF) by (rewrite SK; auto). rewrite HD. unfold asked.
  assert (E1 : match n with 1 => None | _ => Some [n] end = Some [n]) by (destruct n as [| [| n]]; [lia | lia | reflexivity]).
  replace (match n :: [] with [1] => None | _ => Some [n] end) with (Some [n]) by (destruct n as [| [| n]]; [lia | lia | reflexivity]).
  unfold np_call.
  assert (R1 : forallb (fun kv => has_shape (shape_of (snd kv)) (snd kv)) st = true).
  { apply forallb_forall. intros kv I. eapply Forall_forall in SV as [l [-> L]]; [|exact I]. apply (rect_vec l). lia. }
  assert (R2 : forallb (fun sh => fits sh [n]) (map (fun kv => shape_of (snd kv)) st) = true).
  { apply forallb_forall. intros sh I. apply in_map_iff in I as [kv [<- I]]. eapply Forall_forall in SV as [l [-> L]]; [|exact I].
    destruct (rect_vec l ltac:(lia)) as [_ ->]. rewrite L. apply fits_one. }
  rewrite R1, R2.
  set (c := mkCall (nr_name nd) st (Some [n])).
  set (f := fun idx => draw (used nd rng) c idx _).
  assert (T : tabulate [n] f = Arr (map Atom (map (fun i => f [i]) (seq 0 n)))) by (simpl; rewrite map_map; reflexivity).
  rewrite T.
  assert (G : forall (nd' : np_node (A := A)) (rng' : option (gen (A := A))), exists nd'' rng'' l, (Ok (Arr (map Atom (map (fun i => f [i]) (seq 0 n)))), nd', rng') = (Ok (Arr (map Atom l)), nd'', rng'') /\ length l = n /\
    forall i, i < n -> nth_error l i = Some (draw (used nd rng) c [i] (of_sample ps i))).
  { intros nd' rng'. exists nd', rng', (map (fun i => f [i]) (seq 0 n)). split; [reflexivity|]. split; [rewrite map_length, seq_length; reflexivity|].
    intros i I. rewrite nth_error_map, (nth_error_nth' (seq 0 n) 0) by (rewrite seq_length; auto). simpl. rewrite seq_nth by auto. simpl. unfold f. do 2 f_equal.
    rewrite <- (of_sample_stored n ps st i N I HS). unfold of_sample. apply map_ext_in. intros kv J. f_equal.
    eapply Forall_forall in SV as [l [-> L]]; [|exact J]. destruct (rect_vec l ltac:(lia)) as [_ ->]. unfold bidx. simpl.
    assert (B : (if length l =? 1 then 0 else i) = i) by (rewrite L; destruct (n =? 1) eqn:Q; [apply Nat.eqb_eq in Q; lia | reflexivity]).
    rewrite B. rewrite nth_error_map. destruct (nth_error l i) as [x|]; reflexivity. }
  destruct rng as [g|]; apply G.
Qed.

(** A single sample with number parameters: a plain number. *)
Lemma join_atoms : forall (st : args (A := A)), Forall (fun kv => exists a, snd kv = Atom a) st -> join_all (map (fun kv => shape_of (snd kv)) st) = Some [].
Proof.
  induction st as [| kv st IH]; intros H; [reflexivity|]. inversion H as [| ? ? [a E] H']; subst. simpl. rewrite (IH H'), E. reflexivity.
Qed.
Theorem C77_single : forall nd ps rng, nr_dims nd = [] -> nr_fixed nd = [] -> NoDup (map fst ps) -> Forall (fun kv => exists a, snd kv = Atom a) ps ->
  exists nd' rng', compute nd 1 ps rng =
    (Ok (Atom (draw (used nd rng) (mkCall (nr_name nd) ps None) [] (of_sample ps 0))), nd', rng').
Proof.
  intros nd ps rng HD HF ND HP. rewrite compute_eq. cbv zeta. rewrite (eff_args nd rng ps HF ND), HD. unfold asked, np_call.
  assert (R1 : forallb (fun kv => has_shape (shape_of (snd kv)) (snd kv)) ps = true).
  { apply forallb_forall. intros kv I. eapply Forall_forall in HP as [a ->]; [|exact I]. reflexivity. }
  rewrite R1, (join_atoms ps HP). simpl tabulate.
  assert (E : map (fun kv => (fst kv, vget zero (snd kv) (bidx (shape_of (snd kv)) []))) ps = of_sample ps 0).
  { unfold of_sample. apply map_ext_in. intros kv I. eapply Forall_forall in HP as [a E]; [|exact I]. rewrite E. reflexivity. }
  rewrite E. destruct rng; do 2 eexists; reflexivity.
Qed.

(** Whatever the parameters: if several samples or an array per sample are asked for, a result has the shape
    (num_samples, *size); without parameters there always is a result. *)
Theorem C77_shape : forall nd n a rng, asked n (nr_dims nd) <> None ->
  (forall v nd' rng', compute nd n a rng = (Ok v, nd', rng') -> has_shape (n :: nr_dims nd) v = true) /\
  (forall e nd' rng', compute nd n a rng = (Err e, nd', rng') -> e = ValueError) /\
  (nr_fixed nd = [] -> a = [] -> exists v nd' rng', compute nd n a rng = (Ok v, nd', rng') /\
     forall idx, in_range idx (n :: nr_dims nd) -> vget zero v idx = draw (used nd rng) (mkCall (nr_name nd) [] (Some (n :: nr_dims nd))) idx []).
Proof.
  intros nd n a rng H. rewrite compute_eq. cbv zeta. set (a' := match rng with Some _ => a | None => _ end).
  assert (E : asked n (nr_dims nd) = Some (n :: nr_dims nd)).
  { unfold asked in *. destruct n as [| [| n]]; try reflexivity. destruct (nr_dims nd); [congruence | reflexivity]. }
  rewrite E. unfold np_call.
  split; [| split].
  - intros v nd' rng' X. destruct (forallb (fun kv => has_shape (shape_of (snd kv)) (snd kv)) a'); [| destruct rng; discriminate].
    destruct (forallb (fun sh => fits sh (n :: nr_dims nd)) _); [| destruct rng; discriminate].
    pose proof (tabulate_shape (n :: nr_dims nd)) as TS.
    match type of X with context [tabulate _ ?F] => specialize (TS F) end. destruct rng; injection X as <- _ _; exact TS.
  - intros e nd' rng' X. destruct (forallb (fun kv => has_shape (shape_of (snd kv)) (snd kv)) a'); [| destruct rng; congruence].
    destruct (forallb (fun sh => fits sh (n :: nr_dims nd)) _); destruct rng; congruence.
  - intros HF Ha. assert (A0 : a' = []) by (unfold a'; destruct rng; [exact Ha | rewrite HF, Ha; reflexivity]). rewrite A0. cbn [map forallb].
    destruct rng; do 3 eexists; (split; [reflexivity|]); intros idx I; rewrite tabulate_get by exact I; reflexivity.
Qed.

(** ** Generators *)
(** A given generator is used and advanced, and the node's own is left alone (and irrelevant); without one the node's
    own generator is used. *)
Theorem C77_rng : forall nd nd2 n a g, nr_name nd2 = nr_name nd -> nr_dims nd2 = nr_dims nd ->
  (exists r g', compute nd n a (Some g) = (r, nd, Some g') /\ compute nd2 n a (Some g) = (r, nd2, Some g') /\ ge_seed g' = ge_seed g) /\
  (exists r nd', compute nd n a None = (r, nd', None) /\ nr_name nd' = nr_name nd /\ nr_dims nd' = nr_dims nd /\ nr_fixed nd' = nr_fixed nd /\ ge_seed (nr_own nd') = ge_seed (nr_own nd)).
Proof.
  intros nd nd2 n a g H1 H2. unfold np_compute. rewrite H1, H2.
  assert (S0 : forall g a sz r g', np_call zero draw g (nr_name nd) a sz = (r, g') -> ge_seed g' = ge_seed g).
  { intros g0 a0 sz r g' E. unfold np_call in E. destruct (if forallb _ a0 then _ else None); injection E as _ <-; reflexivity. }
  split.
  - destruct (np_call zero draw g (nr_name nd) a _) as [r g'] eqn:E. exists r, g'. repeat split. eapply S0. exact E.
  - destruct (np_call zero draw (nr_own nd) (nr_name nd) (with_fixed (nr_fixed nd) a) _) as [r g'] eqn:E. exists r. eexists. repeat split. simpl. eapply S0. exact E.
Qed.
(** After [set_seed s] the node behaves, for ever, like a new node made with that seed (when it has no fixed parameters). *)
Fixpoint runs (nd : np_node (A := A)) (cs : list (nat * args (A := A))) : list (result value) :=
  match cs with [] => [] | (n, a) :: cs' => let '(r, nd', _) := compute nd n a None in r :: runs nd' cs' end.
Theorem C77_seed : forall name size seed seed' nd0 nd fresh, np_make (A := A) known name size seed [] = Ok nd0 -> np_make (A := A) known name size seed' [] = Ok fresh ->
  forall before cs, nd = fold_left (fun nd c => snd (fst (compute nd (fst c) (snd c) None))) before nd0 ->
  runs (np_set_seed nd seed') cs = runs fresh cs.
Proof.
  intros name size seed seed' nd0 nd fresh M1 M2 before cs ->.
  destruct (C77_make name size seed []) as [_ [_ P1]]. destruct (P1 _ M1) as (A1 & A2 & A3 & A4 & _).
  destruct (C77_make name size seed' []) as [_ [_ P2]]. destruct (P2 _ M2) as (B1 & B2 & B3 & B4 & _).
  assert (K : forall before nd, let nd' := fold_left (fun nd c => snd (fst (compute nd (fst c) (snd c) None))) before nd in nr_name nd' = nr_name nd /\ nr_dims nd' = nr_dims nd).
  { induction before0 as [| [n a] b IH]; intros nd; cbv zeta; cbn [fold_left fst snd]; [auto|]. destruct (IH (snd (fst (compute nd n a None)))) as [I1 I2]. rewrite I1, I2.
    destruct (C77_rng nd nd n a (nr_own nd) eq_refl eq_refl) as [_ [r [nd' [E [E1 [E2 _]]]]]]. rewrite E. auto. }
  destruct (K before nd0) as [K1 K2]. f_equal. unfold np_set_seed. rewrite K1, K2, A1, A4. destruct fresh as [fn fd fo ff]. simpl in *. subst. reflexivity.
Qed.

(** ** What the code does not do *)
(** Arrays per sample and parameters: with n > 1 samples, size = (.., d) and at least one parameter (a constant or one value per
    sample), sampling raises ValueError unless d = n; and then, for size = d, element (i, j) is drawn with the
    parameters of sample j, not of sample i. *)
Theorem C77_size_refuted : forall nd n ps st rng, nr_fixed nd = [] -> NoDup (map fst ps) -> 1 < n -> plain_params ps -> ps <> [] -> stored n ps = Ok st ->
  (forall pre d, nr_dims nd = pre ++ [d] -> d <> n -> fst (fst (compute nd n st rng)) = Err ValueError) /\
  (nr_dims nd = [n] -> exists v, fst (fst (compute nd n st rng)) = Ok v /\
     forall i j, i < n -> j < n -> vget zero v [i; j] = draw (used nd rng) (mkCall (nr_name nd) st (Some [n; n])) [i; j] (of_sample ps j)).
Proof.
  intros nd n ps st rng HF ND N HP NE HS.
  pose proof (stored_vals n ps st N HS HP) as SV. pose proof (stored_keys n ps st HS) as SK.
  assert (R1 : forallb (fun kv => has_shape (shape_of (snd kv)) (snd kv)) st = true).
  { apply forallb_forall. intros kv I. eapply Forall_forall in SV as [l [-> L]]; [|exact I]. apply (rect_vec l). lia. }
  assert (A0 : forall dims, dims <> [] -> asked n dims = Some (n :: dims)).
  { intros dims D. unfold asked. destruct n as [| [| n]]; [lia | lia | reflexivity]. }
  split.
  - intros pre d HD Hd. rewrite compute_eq. cbv zeta. rewrite (eff_args nd rng st HF) by (rewrite SK; auto).
    rewrite A0 by (rewrite HD; destruct pre; discriminate). unfold np_call. rewrite R1.
    assert (R2 : forallb (fun sh => fits sh (n :: nr_dims nd)) (map (fun kv => shape_of (snd kv)) st) = false).
    { destruct st as [| kv st']; [destruct ps; [congruence | discriminate SK]|]. inversion SV as [| ? ? [l [E L]] _]; subst. cbn [map forallb]. rewrite E.
      destruct (rect_vec l ltac:(lia)) as [_ ->]. unfold fits. rewrite HD, app_comm_cons, rev_app_distr. simpl rev at 1 2. cbn [app fits_rev].
      replace (length l =? 1) with false by (symmetry; apply Nat.eqb_neq; lia). replace (length l =? d) with false by (symmetry; apply Nat.eqb_neq; congruence).
      reflexivity. }
    rewrite R2. destruct rng; reflexivity.
  - intros HD. rewrite compute_eq. cbv zeta. rewrite (eff_args nd rng st HF) by (rewrite SK; auto).
    rewrite A0 by (rewrite HD; discriminate). unfold np_call. rewrite R1, HD.
    assert (R2 : forallb (fun sh => fits sh [n; n]) (map (fun kv => shape_of (snd kv)) st) = true).
    { apply forallb_forall. intros sh I. apply in_map_iff in I as [kv [<- I]]. eapply Forall_forall in SV as [l [-> L]]; [|exact I].
      destruct (rect_vec l ltac:(lia)) as [_ ->]. rewrite L. unfold fits. simpl. rewrite Nat.eqb_refl, orb_true_r. reflexivity. }
    rewrite R2.
    match goal with |- context [tabulate [n; n] ?F] => set (f := F) end.
    exists (tabulate [n; n] f). split; [destruct rng; reflexivity|]. intros i j I J.
    rewrite tabulate_get by (repeat constructor; auto). unfold f. f_equal. rewrite <- (of_sample_stored n ps st j N J HS). unfold of_sample. apply map_ext_in. intros kv K. f_equal.
    eapply Forall_forall in SV as [l [-> L]]; [|exact K]. destruct (rect_vec l ltac:(lia)) as [_ ->]. unfold bidx. simpl.
    replace (length l =? 1) with false by (symmetry; apply Nat.eqb_neq; lia). rewrite nth_error_map. destruct (nth_error l j); reflexivity.
Qed.
(** Fixed parameters are dropped when a generator is given, and for good after [set_seed]: the call is made without them. *)
Theorem C77_fixed_refuted : forall nd n a g seed, let bare := mkNp (nr_name nd) (nr_dims nd) (nr_own nd) [] in
  fst (fst (compute nd n a (Some g))) = fst (fst (compute bare n a (Some g))) /\ np_set_seed nd seed = np_set_seed bare seed.
Proof.
  intros nd n a g seed bare. split; [| reflexivity]. unfold np_compute, bare. simpl nr_name. simpl nr_dims.
  destruct (np_call zero draw g (nr_name nd) a _); reflexivity.
Qed.
End NpRandom.

(** A concrete node: normal(loc = 5, scale = one value per sample), three samples. *)
Example C77_case : exists nd, np_make (A := nat) (fun s => String.eqb s "normal") "normal" (SInt 1) 7 [] = Ok nd /\ nr_dims nd = [] /\ nr_fixed nd = [] /\
  let ps := [("loc"%string, Atom 5); ("scale"%string, Arr [Atom 1; Atom 2; Atom 3])] in
  stored 3 ps = Ok [("loc"%string, Arr [Atom 5; Atom 5; Atom 5]); ("scale"%string, Arr [Atom 1; Atom 2; Atom 3])] /\
  NoDup (map fst ps) /\ plain_params ps /\ of_sample 0 ps 1 = [("loc"%string, 5); ("scale"%string, 2)].
Proof.
  eexists. split; [reflexivity|]. simpl. repeat split; try reflexivity.
  - repeat constructor; simpl; intuition discriminate.
  - repeat constructor.
Qed.
