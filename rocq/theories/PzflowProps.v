(** Property C95: sampling from a normalizing flow. *)
From Coq Require Import ZArith String List Bool Arith Lia.
From Verif Require Import Base BaseFacts GraphStateModel GraphStateProofs GraphStateProofs2 GraphStateProofs3 GraphStateProofs4 GraphStateProps NodeGraphModel NodeGraphProps ExternalModel ExternalProps.
Import ListNotations.
Open Scope string_scope.
Open Scope list_scope.
Open Scope nat_scope.

(** ** The seed *)
(** A byte string. *)
Definition bytes (b : list Z) : Prop := Forall (fun x => (0 <= x < 256)%Z) b.
Lemma fb_app : forall b acc, fold_left (fun acc x => (256 * acc + x)%Z) b acc = (acc * 256 ^ Z.of_nat (length b) + from_bytes_big b)%Z.
Proof.
  unfold from_bytes_big. induction b as [|x b IH]; intros acc; [cbn; lia|]. cbn [fold_left length]. rewrite IH, (IH (256 * 0 + x)%Z). rewrite Nat2Z.inj_succ, Z.pow_succ_r by lia. nia.
Qed.
Lemma fb_cons : forall x b, from_bytes_big (x :: b) = (x * 256 ^ Z.of_nat (length b) + from_bytes_big b)%Z.
Proof. intros x b. unfold from_bytes_big at 1. cbn [fold_left]. rewrite fb_app. f_equal. Qed.
Lemma fb_bound : forall b, bytes b -> (0 <= from_bytes_big b < 256 ^ Z.of_nat (length b))%Z.
Proof.
  induction 1 as [|x b Hx Hb IH]; [cbn; lia|]. rewrite fb_cons. cbn [length]. rewrite Nat2Z.inj_succ, Z.pow_succ_r by lia. nia.
Qed.
(** The seed given to the flow is between 0 and 2^32 - 1, and different bytes give different seeds. *)
Theorem C95_seed_range : forall b, bytes b -> length b = 4 -> (0 <= from_bytes_big b < 2 ^ 32)%Z.
Proof. intros b H L. pose proof (fb_bound b H) as B. rewrite L in B. exact B. Qed.
Theorem C95_seed_injective : forall b1 b2, bytes b1 -> bytes b2 -> length b1 = length b2 -> from_bytes_big b1 = from_bytes_big b2 -> b1 = b2.
Proof.
  induction b1 as [|x b1 IH]; destruct b2 as [|y b2]; intros H1 H2 L E; try discriminate; auto. inversion H1; inversion H2; subst. cbn in L.
  rewrite !fb_cons in E. replace (length b2) with (length b1) in E by lia. pose proof (fb_bound b1 H4) as B1. pose proof (fb_bound b2 H8) as B2. replace (length b2) with (length b1) in B2 by lia.
  assert (x = y) by nia. subst y. f_equal. apply IH; auto; lia.
Qed.
Example C95_seed_case : from_bytes_big [1; 2; 0; 255]%Z = 16908543%Z /\ bytes [1; 2; 0; 255]%Z.
Proof. split; [reflexivity|]. repeat constructor; lia. Qed.

(** ** Construction *)
(** A node can be made exactly if every conditional column of the flow is given as a keyword argument; otherwise ValueError. *)
Theorem C95_make_iff : forall A node (fl : flow A) given,
  (forall cs c, fl_cond fl = Some cs -> In c cs -> In c given) <-> exists z, pz_init node fl given = Ok z.
Proof.
  intros A node fl given. unfold pz_init. destruct (fl_cond fl) as [[|c cs]|].
  - split; [eauto|]. intros _ cs c E HI. injection E as <-. destruct HI.
  - destruct (forallb _ (c :: cs)) eqn:EF.
    + split; [eauto|]. intros _ cs' c' E HI. injection E as <-. rewrite forallb_forall in EF. apply smem_In. now apply EF.
    + split; [|intros [z H]; discriminate]. intros H. exfalso. assert (X : forallb (fun col => smem col given) (c :: cs) = true); [|congruence].
      apply forallb_forall. intros k Hk. apply smem_In. exact (H _ k eq_refl Hk).
  - split; [eauto|discriminate].
Qed.
Theorem C95_missing_input : forall A node (fl : flow A) given cs c, fl_cond fl = Some cs -> In c cs -> ~ In c given -> pz_init node fl given = Err ValueError.
Proof.
  intros A node fl given cs c E HI HN. unfold pz_init. rewrite E. destruct cs as [|x cs]; [destruct HI|]. destruct (forallb _ (x :: cs)) eqn:EF; auto.
  rewrite forallb_forall in EF. exfalso. apply HN. apply smem_In. now apply EF.
Qed.

(** ** Conditions *)
Section P.
Context {A RNG : Type}.
Implicit Types (st : gs A) (fl : flow A).
(** The frame has exactly the columns [cols], with these values. *)
Definition has_columns (df : frame A) (n : nat) (cols : list string) (xs : string -> list A) : Prop :=
  f_rows df = n /\ (forall c, In c (dkeys (f_cols df)) <-> In c cols) /\ forall c, In c cols -> dget c (f_cols df) = Some (xs c).

Lemma inputs_ok : forall (ps : dict (value A)) cols acc, (forall c, In c cols -> exists v, dget c ps = Some v) ->
  exists d, pz_inputs ps cols acc = Ok d /\ forall c, dget c d = if smem c cols then dget c ps else dget c acc.
Proof.
  intros ps. induction cols as [|c cols IH]; intros acc H; [exists acc; split; auto|]. cbn [pz_inputs]. destruct (H c (or_introl eq_refl)) as [v E]. rewrite E.
  destruct (IH (dset c v acc)) as (d & E1 & G); [intros; apply H; now right|]. exists d. split; auto. intros k. rewrite G. unfold smem. cbn [existsb]. destruct (String.eqb_spec k c) as [->|N]; cbn [orb].
  - rewrite dget_dset_same, E. now destruct (existsb _ cols).
  - rewrite dget_dset_other by auto. reflexivity.
Qed.
Lemma inputs_nodup : forall (ps : dict (value A)) cols acc d, NoDup (dkeys acc) -> pz_inputs ps cols acc = Ok d -> NoDup (dkeys d).
Proof.
  intros ps. induction cols as [|c cols IH]; intros acc d H E; cbn [pz_inputs] in E; [injection E as <-; auto|]. destruct (dget c ps); [|discriminate]. apply (IH _ _ (NoDup_dset _ _ _ _ H) E).
Qed.
Lemma scalars_map : forall (xs : list A), scalars (map Atom xs) = Some xs.
Proof. induction xs as [|x xs IH]; auto. cbn [map]. unfold scalars in *. cbn [fold_right]. now rewrite IH. Qed.
Lemma frame_cols_ok : forall n xs (d : dict (value A)), (forall k v, In (k, v) d -> v = Arr (map Atom (xs k)) /\ length (xs k) = n) ->
  frame_cols n d = Ok (map (fun kv => (fst kv, xs (fst kv))) d).
Proof.
  intros n xs. induction d as [|[k v] d IH]; intros H; auto. cbn [frame_cols map fst]. destruct (H k v (or_introl eq_refl)) as [-> L]. rewrite map_length, L, Nat.eqb_refl, scalars_map, IH; auto.
  intros; apply H; now right.
Qed.
Lemma node_params : forall st node k v, wf st -> reads st node k v -> exists ps, gs_getitem st node = Ok (INode ps) /\ dget k ps = Some v.
Proof.
  intros st node k v W H. unfold reads in H. rewrite reads_look in H by (now apply wf_wk). unfold look in H. destruct (dget node (gs_states st)) as [ps|] eqn:E; [|discriminate].
  exists ps. split; auto. unfold gs_getitem. now rewrite E.
Qed.
(** The conditions handed to the flow: one row per sample, one column per conditional column. *)
Lemma conditions_ok : forall st node cs xs, wf st -> cs <> [] -> (forall c, In c cs -> reads st node c (Arr (map Atom (xs c))) /\ length (xs c) = gs_n st) ->
  exists ps inp df, gs_getitem st node = Ok (INode ps) /\ pz_inputs ps cs [] = Ok inp /\ data_frame inp = Ok df /\ has_columns df (gs_n st) cs xs.
Proof.
  intros st node cs xs W NE H. destruct cs as [|c0 cs']; [easy|]. set (cs := c0 :: cs') in *.
  destruct (node_params st node c0 _ W (proj1 (H c0 (or_introl eq_refl)))) as (ps & EP & _).
  assert (HP : forall c, In c cs -> dget c ps = Some (Arr (map Atom (xs c)))).
  { intros c Hc. destruct (node_params st node c _ W (proj1 (H c Hc))) as (ps' & EP' & D). rewrite EP in EP'. injection EP' as <-. exact D. }
  destruct (inputs_ok ps cs []) as (inp & EI & G); [intros c Hc; eauto|].
  pose proof (inputs_nodup ps cs [] inp (NoDup_nil _) EI) as ND.
  assert (HV : forall k v, In (k, v) inp -> v = Arr (map Atom (xs k)) /\ length (xs k) = gs_n st /\ In k cs).
  { intros k v HI. apply In_dget in HI; auto. rewrite G in HI. destruct (smem k cs) eqn:SM; [|discriminate]. apply smem_In in SM. rewrite HP in HI by auto. injection HI as <-. split; auto. split; auto. now apply H. }
  exists ps, inp, (mkF (gs_n st) (map (fun kv => (fst kv, xs (fst kv))) inp)). split; auto. split; auto. split.
  - unfold data_frame. assert (CL : common_length inp = Ok (gs_n st)).
    { assert (G0 : dget c0 inp = Some (Arr (map Atom (xs c0)))). { rewrite G. replace (smem c0 cs) with true by (symmetry; apply smem_In; now left). apply HP. now left. }
      destruct inp as [|[k v] inp]; [discriminate|]. unfold common_length. cbn [fold_right snd]. destruct (HV k v (or_introl eq_refl)) as (-> & L & _). now rewrite map_length, L. }
    rewrite CL. rewrite (frame_cols_ok _ xs); auto. intros k v HI. destruct (HV k v HI) as (E1 & E2 & _). now split.
  - unfold has_columns. cbn [f_rows f_cols]. split; auto.
    assert (DG : forall c, dget c (map (fun kv : string * value A => (fst kv, xs (fst kv))) inp) = match dget c inp with Some _ => Some (xs c) | None => None end).
    { intros c. clear. induction inp as [|[k v] inp IH]; auto. cbn [map fst dget]. destruct (String.eqb_spec c k) as [->|N]; auto. }
    split.
    + intros c. rewrite <- dget_keys, DG, G. destruct (smem c cs) eqn:SM.
      * split; [intros _; now apply smem_In|]. intros Hc. rewrite (HP c Hc). discriminate.
      * cbn [dget]. split; [congruence|]. intros Hc. apply smem_In in Hc. congruence.
    + intros c Hc. rewrite DG, G. pose proof Hc as Hc'. apply smem_In in Hc'. now rewrite Hc', (HP c Hc).
Qed.

(** ** Storing the result *)
Lemma results_ok : forall n cols (df : frame A), 1 <= n -> (forall c, In c cols -> exists xs, dget c (f_cols df) = Some xs /\ length xs = n) ->
  pz_results n cols df = Ok (map (pick n (f_cols df)) cols).
Proof.
  intros n cols df Hn. induction cols as [|c cols IH]; intros H; auto. cbn [pz_results map]. destruct (H c (or_introl eq_refl)) as (xs & E & L). unfold pick at 1. rewrite E.
  destruct (Nat.eqb_spec n 1) as [->|N]; [destruct xs as [|x xs]; [discriminate|]|]; rewrite IH; auto; intros; apply H; now right.
Qed.
Lemma save_ok : forall st node cols d, cols <> [] ->
  save_results_gs st node cols (match map (pick (gs_n st) d) cols with [v] => v | _ => Arr (map (pick (gs_n st) d) cols) end) = gs_set_all st (map (fun k => (node, k, pick (gs_n st) d k)) cols) false.
Proof.
  intros st node cols d NE. destruct cols as [|c [|c2 cols]]; [easy| |].
  - cbn [map save_results_gs gs_set_all]. destruct (gs_set st node c _ false) as [s [e|]]; reflexivity.
  - set (cs := c :: c2 :: cols). replace (match map (pick (gs_n st) d) cs with [v] => v | _ => Arr (map (pick (gs_n st) d) cs) end) with (Arr (map (pick (gs_n st) d) cs)) by reflexivity.
    replace (save_results_gs st node cs (Arr (map (pick (gs_n st) d) cs))) with
      (if negb (length (map (pick (gs_n st) d) cs) =? length cs) then (st, Some ValueError) else gs_set_all st (map (fun ov => (node, fst ov, snd ov)) (combine cs (map (pick (gs_n st) d) cs))) false) by reflexivity.
    rewrite map_length, Nat.eqb_refl. cbn [negb]. f_equal. generalize cs. clear. induction cs as [|k cs IH]; auto. cbn [map combine fst snd]. now rewrite IH.
Qed.
(** The frame [out] was returned by the flow: this is what the state looks like afterwards. *)
Definition stored_frame st st' (node : string) (cols : list string) (out : frame A) : Prop :=
  gs_n st' = gs_n st /\
  (forall c, In c cols -> exists ys v, dget c (f_cols out) = Some ys /\ length ys = gs_n st /\ stored_as (gs_n st) ys v /\ (~ fixed_in st node c -> reads st' node c v)) /\
  (forall nd k v, nd <> node \/ ~ In k cols \/ fixed_in st nd k -> (reads st' nd k v <-> reads st nd k v)).
Lemma store_frame : forall (rng_bytes : nat -> RNG -> list Z * RNG) node fl given z st rng seed rng' out, wf st ->
  pz_init node fl given = Ok z -> fl_data fl <> [] -> NoDup (fl_data fl) -> has_dot node = false -> (forall c, In c (fl_data fl) -> has_dot c = false) ->
  (match rng with None => (None, None) | Some r => let (b, r') := rng_bytes 4 r in (Some (from_bytes_big b), Some r') end) = (seed, rng') ->
  pz_samples z st seed = Ok out -> (forall c, In c (fl_data fl) -> exists xs, dget c (f_cols out) = Some xs /\ length xs = gs_n st) ->
  exists st' res, pz_compute rng_bytes z st rng = (rng', (st', Ok res)) /\ stored_frame st st' node (fl_data fl) out.
Proof.
  intros rng_bytes node fl given z st rng seed rng' out W HI NE ND HN HC ES EP HO. pose proof (wf_n _ W) as Wn.
  assert (ZF : z_name z = node /\ z_flow z = fl /\ z_outputs z = fl_data fl).
  { unfold pz_init in HI. destruct (fl_data fl) eqn:EC; [easy|]. destruct (fl_cond fl) as [[|x xs]|]; [|destruct (forallb _ _); [|discriminate]|]; injection HI as <-; auto. }
  destruct ZF as (Z1 & Z2 & Z3). unfold pz_compute. rewrite ES, EP, Z1, Z2, Z3. rewrite results_ok by auto. cbv zeta. rewrite save_ok by auto.
  destruct (set_picks node (f_cols out) (fl_data fl) st W ND HN HC HO) as (st' & E & W' & N' & RD). rewrite E. do 2 eexists. split; [reflexivity|]. split; auto. split.
  - intros c Hc. destruct (HO c Hc) as (ys & E1 & L1). exists ys, (pick (gs_n st) (f_cols out) c). split; auto. split; auto. split; [now apply pick_stored|].
    intros NF. rewrite RD. apply fixed_false in NF. rewrite NF, String.eqb_refl. apply smem_In in Hc. now rewrite Hc.
  - intros nd k v H. rewrite RD. destruct (String.eqb_spec nd node) as [->|]; cbn [andb]; [|tauto]. destruct (smem k (fl_data fl)) eqn:SM; cbn [andb]; [|tauto].
    destruct (is_fixed st node k) eqn:EF; cbn [negb]; [tauto|]. apply smem_In in SM. apply fixed_false in EF. tauto.
Qed.

(** The seed that [compute] derives from the generator, and the generator afterwards. *)
Definition seed_from (rng_bytes : nat -> RNG -> list Z * RNG) (rng : option RNG) (seed : option Z) (rng' : option RNG) : Prop :=
  match rng with
  | None => seed = None /\ rng' = None
  | Some r => seed = Some (from_bytes_big (fst (rng_bytes 4 r))) /\ rng' = Some (snd (rng_bytes 4 r))
  end.
Lemma seed_from_eq : forall rng_bytes rng seed rng', seed_from rng_bytes rng seed rng' ->
  (match rng with None => (None, None) | Some r => let (b, r') := rng_bytes 4 r in (Some (from_bytes_big b), Some r') end) = (seed, rng').
Proof. intros rng_bytes [r|] seed rng'; cbn [seed_from]; [|intros [-> ->]; auto]. destruct (rng_bytes 4 r) as [b r']. cbn [fst snd]. intros [-> ->]. reflexivity. Qed.
Lemma seed_from_ex : forall (rng_bytes : nat -> RNG -> list Z * RNG) rng, exists seed rng', seed_from rng_bytes rng seed rng'.
Proof. intros rng_bytes [r|]; cbn [seed_from]; eauto. Qed.

(** Without conditional columns: the flow is asked for as many rows as there are samples, with the seed from the generator (None without one), and its
    columns become the node's parameters; values given in advance and all other parameters stay. *)
Theorem C95_unconditional : forall (rng_bytes : nat -> RNG -> list Z * RNG) node fl given z st rng seed rng',
  reachable st -> pz_init node fl given = Ok z -> fl_cond fl = None \/ fl_cond fl = Some [] ->
  fl_data fl <> [] -> NoDup (fl_data fl) -> has_dot node = false -> (forall c, In c (fl_data fl) -> has_dot c = false) ->
  seed_from rng_bytes rng seed rng' ->
  (exists out, fl_sample fl (gs_n st) None seed = Ok out /\ forall c, In c (fl_data fl) -> exists xs, dget c (f_cols out) = Some xs /\ length xs = gs_n st) ->
  exists st' res out, fl_sample fl (gs_n st) None seed = Ok out /\ pz_compute rng_bytes z st rng = (rng', (st', Ok res)) /\ stored_frame st st' node (fl_data fl) out.
Proof.
  intros rng_bytes node fl given z st rng seed rng' R HI HC NE ND HN HD HS (out & EO & HO). assert (W := reachable_wf _ R).
  destruct (store_frame rng_bytes node fl given z st rng seed rng' out W HI NE ND HN HD (seed_from_eq _ _ _ _ HS)) as (st' & res & E & SF); auto.
  - unfold pz_init in HI. unfold pz_samples. destruct HC as [HC|HC]; rewrite HC in HI; injection HI as <-; exact EO.
  - exists st', res, out. auto.
Qed.
(** With conditional columns and at least two samples: the flow is asked for one row per sample; the conditions of row [i] are the node's parameters of
    sample [i]; its columns become the node's parameters. *)
Theorem C95_conditional : forall (rng_bytes : nat -> RNG -> list Z * RNG) node fl given z st rng seed rng' cs xs,
  reachable st -> pz_init node fl given = Ok z -> fl_cond fl = Some cs -> cs <> [] -> 2 <= gs_n st ->
  fl_data fl <> [] -> NoDup (fl_data fl) -> has_dot node = false -> (forall c, In c (fl_data fl) -> has_dot c = false) ->
  seed_from rng_bytes rng seed rng' ->
  (forall c, In c cs -> reads st node c (Arr (map Atom (xs c)))) ->
  (forall df, has_columns df (gs_n st) cs xs -> exists out, fl_sample fl 1 (Some df) seed = Ok out /\ forall c, In c (fl_data fl) -> exists ys, dget c (f_cols out) = Some ys /\ length ys = gs_n st) ->
  exists df out st' res, has_columns df (gs_n st) cs xs /\ fl_sample fl 1 (Some df) seed = Ok out /\
    pz_compute rng_bytes z st rng = (rng', (st', Ok res)) /\ stored_frame st st' node (fl_data fl) out.
Proof.
  intros rng_bytes node fl given z st rng seed rng' cs xs R HI HC NC H2 NE ND HN HD HS HX HF. assert (W := reachable_wf _ R).
  assert (HX' : forall c, In c cs -> reads st node c (Arr (map Atom (xs c))) /\ length (xs c) = gs_n st).
  { intros c Hc. split; [now apply HX|]. pose proof (HX c Hc) as HR. unfold reads in HR. rewrite reads_look in HR by (now apply wf_wk).
    pose proof (wf_var _ W _ _ _ HR) as V. destruct V as (_ & SH). unfold shape in SH. destruct SH as [E|(l & E & L)]; [lia|]. injection E as <-. now rewrite map_length in L. }
  destruct (conditions_ok st node cs xs W NC HX') as (ps & inp & df & E1 & E2 & E3 & HCols). destruct (HF df HCols) as (out & EO & HO).
  destruct (store_frame rng_bytes node fl given z st rng seed rng' out W HI NE ND HN HD (seed_from_eq _ _ _ _ HS)) as (st' & res & E & SF); auto.
  - unfold pz_init in HI. rewrite HC in HI. destruct cs as [|c cs]; [easy|]. destruct (forallb _ _); [|discriminate]. injection HI as <-. unfold pz_samples. cbn [z_cond z_name z_flow].
    now rewrite E1, E2, E3.
  - exists df, out, st', res. auto.
Qed.
(** With conditional columns and one sample: the parameters are numbers, from which pandas makes no DataFrame, and sampling always raises ValueError; the
    state is left as it was. *)
Theorem C95_conditional_one_sample_refuted : forall (rng_bytes : nat -> RNG -> list Z * RNG) node fl given z st rng cs xs,
  reachable st -> pz_init node fl given = Ok z -> fl_cond fl = Some cs -> cs <> [] -> gs_n st = 1 ->
  (forall c, In c cs -> reads st node c (Atom (xs c))) ->
  snd (pz_compute rng_bytes z st rng) = (st, Err ValueError).
Proof.
  intros rng_bytes node fl given z st rng cs xs R HI HC NC H1 HX. assert (W := reachable_wf _ R). destruct (seed_from_ex rng_bytes rng) as (seed & rng' & HS).
  unfold pz_compute. rewrite (seed_from_eq _ _ _ _ HS). cbn [snd]. unfold pz_init in HI. rewrite HC in HI. destruct cs as [|c cs]; [easy|]. destruct (forallb _ _); [|discriminate]. injection HI as <-.
  unfold pz_samples. cbn [z_cond z_name z_flow]. destruct (node_params st node c _ W (HX c (or_introl eq_refl))) as (ps & EP & _). rewrite EP.
  assert (HP : forall k, In k (c :: cs) -> dget k ps = Some (Atom (xs k))).
  { intros k Hk. destruct (node_params st node k _ W (HX k Hk)) as (ps' & EP' & D). rewrite EP in EP'. injection EP' as <-. exact D. }
  destruct (inputs_ok ps (c :: cs) []) as (inp & EI & G); [intros k Hk; eauto|]. rewrite EI. pose proof (inputs_nodup ps (c :: cs) [] inp (NoDup_nil _) EI) as ND.
  assert (HV : forall k v, In (k, v) inp -> exists a, v = Atom a).
  { intros k v Hk. apply In_dget in Hk; auto. rewrite G in Hk. destruct (smem k (c :: cs)) eqn:SM; [|discriminate]. apply smem_In in SM. rewrite HP in Hk by auto. injection Hk as <-. eauto. }
  assert (CL : common_length inp = Err ValueError).
  { unfold common_length. assert (X : fold_right (fun kv acc => match snd kv with Arr l => Some (length l) | Atom _ => acc end) None inp = None).
    { clear -HV. induction inp as [|[k v] inp IH]; auto. cbn [fold_right snd]. destruct (HV k v (or_introl eq_refl)) as [a ->]. apply IH. intros; eapply HV; right; eauto. }
    now rewrite X. }
  unfold data_frame. now rewrite CL.
Qed.
(** The result and the state depend on the generator only through the four bytes drawn from it, and the generator has moved on by these; another way of saying it: the
    same seed always gives the same samples. *)
Theorem C95_reproducible : forall (rng_bytes : nat -> RNG -> list Z * RNG) (z : pznode A) st r1 r2, fst (rng_bytes 4 r1) = fst (rng_bytes 4 r2) ->
  snd (pz_compute rng_bytes z st (Some r1)) = snd (pz_compute rng_bytes z st (Some r2)) /\
  fst (pz_compute rng_bytes z st (Some r1)) = Some (snd (rng_bytes 4 r1)).
Proof.
  intros rng_bytes z st r1 r2 H. unfold pz_compute. destruct (rng_bytes 4 r1) as [b1 q1], (rng_bytes 4 r2) as [b2 q2]. cbn [fst snd] in *. subst. split; reflexivity.
Qed.
End P.

(** ** Concrete cases *)
(** A flow whose row for the condition [z] is [z + seed] (columns "g" and "r"). *)
Definition ex_flow : flow Z := mkFlow ["g"; "r"] (Some ["redshift"]) (fun k conds seed =>
  match conds, seed with
  | Some df, Some s => match dget "redshift" (f_cols df) with
      | Some xs => Ok (mkF (f_rows df) [("g", map (fun x => (x + s)%Z) xs); ("r", map (fun x => (x + 2 * s)%Z) xs); ("redshift", xs)])
      | None => Err KeyError end
  | _, _ => Err ValueError
  end).
Definition ex_node : pznode Z := mkP "pz" ex_flow (Some ["redshift"]) ["g"; "r"].
Definition ex_rng (k : nat) (r : Z) : list Z * Z := (repeat 0%Z (k - 1) ++ [r], (r + 1)%Z).
Definition ex_pz (n : nat) (v : value Z) : gs Z := run (gs_fresh n) [OSet "pz" "redshift" v false].
Example C95_conditional_case : reachable (ex_pz 2 (Arr [Atom 10%Z; Atom 20%Z])) /\ pz_init "pz" ex_flow ["redshift"] = Ok ex_node /\
  exists st' res, pz_compute ex_rng ex_node (ex_pz 2 (Arr [Atom 10%Z; Atom 20%Z])) (Some 5%Z) = (Some 6%Z, (st', Ok res)) /\
    reads st' "pz" "g" (Arr [Atom 15%Z; Atom 25%Z]) /\ reads st' "pz" "r" (Arr [Atom 20%Z; Atom 30%Z]) /\ reads st' "pz" "redshift" (Arr [Atom 10%Z; Atom 20%Z]).
Proof.
  split; [exists 2, [OSet "pz" "redshift" (Arr [Atom 10%Z; Atom 20%Z]) false]; split; [lia|reflexivity]|]. split; [reflexivity|]. do 2 eexists. split; [reflexivity|]. repeat split.
Qed.
Example C95_one_sample_case : reachable (ex_pz 1 (Atom 10%Z)) /\ reads (ex_pz 1 (Atom 10%Z)) "pz" "redshift" (Atom 10%Z) /\
  snd (pz_compute ex_rng ex_node (ex_pz 1 (Atom 10%Z)) (Some 5%Z)) = (ex_pz 1 (Atom 10%Z), Err ValueError).
Proof. split; [exists 1, [OSet "pz" "redshift" (Atom 10%Z) false]; split; [lia|reflexivity]|]. split; reflexivity. Qed.
Definition ex_flow1 : flow Z := mkFlow ["z"] None (fun k conds seed => Ok (mkF k [("z", repeat (match seed with Some s => s | None => 0%Z end) k)])).
Example C95_unconditional_case : exists st', pz_compute ex_rng (mkP "pz" ex_flow1 None ["z"]) (gs_fresh 3) (Some 5%Z) = (Some 6%Z, (st', Ok (Arr [Atom 5%Z; Atom 5%Z; Atom 5%Z]))) /\
  reads st' "pz" "z" (Arr [Atom 5%Z; Atom 5%Z; Atom 5%Z]).
Proof. eexists. split; reflexivity. Qed.
Example C95_unconditional_one : exists st', pz_compute ex_rng (mkP "pz" ex_flow1 None ["z"]) (gs_fresh 1) None = (None, (st', Ok (Atom 0%Z))) /\ reads st' "pz" "z" (Atom 0%Z).
Proof. eexists. split; reflexivity. Qed.
Print Assumptions C95_conditional.
Print Assumptions C95_unconditional.
Print Assumptions C95_conditional_one_sample_refuted.
