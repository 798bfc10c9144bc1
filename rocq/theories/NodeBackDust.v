(** Property C115, continued: extinction by a dust map at the model's own position (docs/notebooks/adding_effects.ipynb; tests/lightcurvelynx/effects/test_extinction.py
    [test_dustmap_chain]): the model's E(B-V) is linked to a dust map node whose position is linked to the model. *)
From Coq Require Import Reals String Ascii List Bool Arith ZArith Lia Lra Relations.
From Verif Require Import Base BaseFacts Numerals RealBase GraphStateModel GraphStateProofs GraphStateProofs2 GraphStateProofs4 GraphStateProps
  NodeGraphModel NodeGraphProofs NodeSampleProofs NodeSampleProofs2 NodeGraphProps NodeDepProps NodeRunProps NodeChainProofs NodeChainProps RegenProps ExternalModel ExternalProps DustModel DustProps NodeBackProps.
Import ListNotations.
Open Scope string_scope.
Open Scope list_scope.
Open Scope nat_scope.
#[local] Hint Resolve wf_wk reachable_wf : core.

Lemma wrapper_stored : forall dm q ef g n ras decs v1 v2, pointwise_map dm q -> pointwise_func ef g -> length ras = n -> length decs = n ->
  stored_as n ras v1 -> stored_as n decs v2 -> Forall on_sky decs ->
  exists v, wrapper_ebv (Some dm) ef v1 v2 = Ok v /\ stored_as n (map (fun p => g (q (lon (fst p)) (snd p))) (combine ras decs)) v.
Proof.
  intros dm q ef g n ras decs v1 v2 HM HF L1 L2 S1 S2 HD.
  destruct S1 as [(N1 & a & E1 & ->)|(N1 & ->)], S2 as [(N2 & d & E2 & ->)|(N2 & ->)]; try congruence.
  - subst ras decs. inversion HD; subst. exists (Atom (g (q (lon a) d))). split; [|left; split; auto; exists (g (q (lon a) d)); auto].
    unfold wrapper_ebv, sky_coord. replace (lat_ok d) with true by (symmetry; now apply lat_ok_iff). cbn [bind]. rewrite (proj1 HM). cbn [bind]. destruct ef as [h|]; cbn [pointwise_func] in HF; [apply HF|now rewrite HF].
  - eexists (Arr (map Atom _)). split; [|right; split; auto]. unfold wrapper_ebv, sky_coord. rewrite !flat_map_atom. replace (length ras =? length decs) with true by (symmetry; apply Nat.eqb_eq; congruence). cbn [negb].
    replace (forallb lat_ok decs) with true by (symmetry; apply forallb_forall; intros d Hd; apply lat_ok_iff; rewrite Forall_forall in HD; auto). cbn [bind]. rewrite (proj2 HM). cbn [bind].
    assert (E : map (fun p : DustModel.num * DustModel.num => Atom (q (fst p) (snd p))) (combine (map lon ras) decs) = map Atom (map (fun p => q (lon (fst p)) (snd p)) (combine ras decs))).
    { clear. revert decs. induction ras as [|a ras IH]; intros [|d decs]; auto. cbn [map combine fst snd]. now rewrite IH. }
    rewrite E. destruct ef as [h|]; cbn [pointwise_func] in HF; [rewrite (proj2 HF)|]; f_equal; f_equal; rewrite !map_map; auto. apply map_ext. intros p. now rewrite HF.
Qed.
Lemma stored_expands : forall A n (xs : list A) v, length xs = n -> stored_as n xs v -> expands n v v.
Proof.
  intros A n xs v L [(-> & x & -> & ->)|(N & ->)]; [left; auto|]. right. split; auto. right. eexists. split; [reflexivity|]. rewrite map_length. auto.
Qed.

(** ** The values *)
(** In every run of a model that has such a dust map node, whatever else is in the model: the model's E(B-V) of sample [i] is the map's value at the model's own position of sample [i]. *)
Theorem C115_dust_values : forall W (func : W -> nat -> dict (value DustModel.num) -> W * result (value DustModel.num)) fuel h root g num w h' m dm q ef gg M nM D nD,
  well_formed h -> valid_given g -> sample_parameters func fuel h root g num w = Ok (h', m) ->
  reaches h root M -> nth_error h' M = Some nM -> nth_error h' D = Some nD -> D <> M ->
  (* model.add_effect(ExtinctionEffect(..., ebv=dust)) *)
  In ("ebv", as_function D "ebv") (nd_setters nM) ->
  (* dust = DustmapWrapper(dm, ra=model.ra, dec=model.dec, ebv_func=ef) *)
  nd_fn nD = true -> nd_args nD = ["ra"; "dec"] -> nd_outs nD = ["ebv"] ->
  nd_setters nD = [("ra", as_parameter M "ra"); ("dec", as_parameter M "dec"); ("ebv", as_compute_output undefined "ebv")] ->
  (forall w ra dec, func w D [("ra", ra); ("dec", dec)] = (w, wrapper_ebv (Some dm) ef ra dec)) ->
  pointwise_map dm q -> pointwise_func ef gg ->
  (forall v, ~ given_value g (nd_str nM) "ebv" v) -> (forall name v, ~ given_value g (nd_str nD) name v) ->
  forall ras decs, has_values (sm_gs m) (nd_str nM) "ra" ras -> has_values (sm_gs m) (nd_str nM) "dec" decs -> Forall on_sky decs ->
  exists es, has_values (sm_gs m) (nd_str nM) "ebv" es /\
    forall i a d, nth_error ras i = Some a -> nth_error decs i = Some d -> nth_error es i = Some (gg (q (lon a) d)).
Proof.
  intros W func fuel h root g num w h' m dm q ef gg M nM D nD WF VG RUN RM EM ED NE IE F1 F2 F3 F4 FQ HM HF GM GD ras decs (L1 & v1 & S1 & R1) (L2 & v2 & S2 & R2) HD.
  destruct (start_heap fuel h root) as [h0|] eqn:EH; [|unfold sample_parameters in RUN; now rewrite EH in RUN].
  assert (h0 = h').
  { unfold sample_parameters in RUN. rewrite EH in RUN. destruct (start_state g num); [|discriminate]. destruct (sample_helper _ _ _ _ _); [|discriminate]. congruence. }
  subst h0.
  assert (RD : reaches h root D).
  { eapply rt_trans; [exact RM|]. apply rt_step. apply (start_heap_deps _ _ _ _ _ _ _ EH). exists nM, "ebv", (as_function D "ebv"). auto. }
  assert (N : gs_n (sm_gs m) = Z.to_nat num).
  { destruct (C19_linked_agree _ _ _ _ _ _ _ _ _ _ _ WF VG RUN M nM "ebv" _ RM EM IE) as [Q _]; auto. intros (v & HV). eapply GM; eauto. }
  destruct (C19_linked_agree _ _ _ _ _ _ _ _ _ _ _ WF VG RUN M nM "ebv" _ RM EM IE) as [_ (j & d & v & J1 & J2 & J3 & J4)].
  { intros (v & HV). eapply GM; eauto. }
  cbn [as_function st_dep st_src] in J1, J4. injection J1 as <-. assert (d = nD) by congruence. subst d.
  assert (AR : forall p, In (p, as_parameter M p) (nd_setters nD) -> forall v, reads (sm_gs m) (nd_str nM) p v -> reads (sm_gs m) (nd_str nD) p v).
  { intros p IP u HU. destruct (C19_linked_agree _ _ _ _ _ _ _ _ _ _ _ WF VG RUN D nD p _ RD ED IP) as [_ (k & dk & u' & K1 & K2 & K3 & K4)].
    { intros (x & HV). eapply GD; eauto. }
    cbn [as_parameter st_dep st_src] in K1, K4. injection K1 as <-. assert (dk = nM) by congruence. subst dk. now rewrite (reads_fun _ _ _ _ _ _ HU K4). }
  assert (Q1 := AR "ra" ltac:(rewrite F4; simpl; auto) _ R1). assert (Q2 := AR "dec" ltac:(rewrite F4; simpl; auto) _ R2).
  destruct (C105_calls_in_sequence _ _ _ _ _ _ _ _ _ _ _ WF VG RUN) as (calls & _ & _ & T3 & _ & T5).
  assert (HC : In D (map c_node calls)).
  { apply T3. split; auto. exists nD. split; auto. split; auto. exists "ebv", (as_compute_output undefined "ebv"). rewrite F4. simpl. auto. }
  apply in_map_iff in HC. destruct HC as (c & C1 & C2). rewrite Forall_forall in T5. destruct (T5 c C2) as (n' & E1 & E2 & E3 & E4 & E5 & E6 & _).
  rewrite C1 in E1, E3. assert (n' = nD) by congruence. subst n'. rewrite F2 in E4.
  destruct (c_args c) as [|[a1 u1] [|[a2 u2] [|]]] eqn:EA; try discriminate. injection E4 as -> ->.
  assert (u1 = v1) by (apply (reads_fun _ _ _ _ _ _ (E5 "ra" u1 ltac:(simpl; auto)) Q1)).
  assert (u2 = v2) by (apply (reads_fun _ _ _ _ _ _ (E5 "dec" u2 ltac:(simpl; auto)) Q2)). subst u1 u2.
  rewrite FQ in E3. rewrite N in *.
  destruct (wrapper_stored dm q ef gg _ ras decs v1 v2 HM HF L1 L2 S1 S2 HD) as (r & X1 & X2).
  assert (r = c_result c) by congruence. subst r.
  destruct (E6 "ebv" F3) as (u & U1 & U2). { intros (x & HV). eapply GD; eauto. }
  assert (LE : length (map (fun p => gg (q (lon (fst p)) (snd p))) (combine ras decs)) = Z.to_nat num) by (rewrite map_length, combine_nth_pair; congruence).
  assert (u = c_result c) by (apply (expands_fun _ _ _ _ _ U1 (stored_expands _ _ _ _ LE X2))). subst u.
  assert (v = c_result c) by (apply (reads_fun _ _ _ _ _ _ J4 U2)). subst v.
  eexists. split.
  - split; [rewrite N; exact LE|]. rewrite N. eauto.
  - intros i a d HA HB.
    assert (HC : nth_error (combine ras decs) i = Some (a, d)).
    { clear -HA HB. revert decs i HA HB. induction ras as [|x ras IH]; intros [|y decs] [|i] HA HB; try discriminate; cbn [nth_error combine] in *; [congruence|auto]. }
    now rewrite (map_nth_error _ _ _ HC).
Qed.

(** ** The documented model: positions from two function nodes (lists, random numbers), a dust map at the model's position. *)
Section Case.
Variables (z t0 dist bright : DustModel.num).
Definition dust_setters (order : list (string * setter DustModel.num)) : nheap DustModel.num :=
  [mkNode None "ConstantSEDModel" false None order None "" [] [] [];
   mkNode None "DustmapWrapper" true (Some "compute_ebv") [("ra", as_parameter 0 "ra"); ("dec", as_parameter 0 "dec"); ("ebv", as_compute_output undefined "ebv")] None "" ["ra"; "dec"] ["ebv"] [];
   mkNode None "GivenValueList" true (Some "compute") [("function_node_result", as_compute_output undefined "function_node_result")] None "" [] ["function_node_result"] [];
   mkNode None "GivenValueList" true (Some "compute") [("function_node_result", as_compute_output undefined "function_node_result")] None "" [] ["function_node_result"] []].
Definition dust_heap : nheap DustModel.num := dust_setters
  [("ra", as_function 2 "function_node_result"); ("dec", as_function 3 "function_node_result"); ("redshift", as_constant (Atom z)); ("t0", as_constant (Atom t0)); ("distance", as_constant (Atom dist));
   ("brightness", as_constant (Atom bright)); ("ebv", as_function 1 "ebv")].
Definition dust_named : nheap DustModel.num := Eval vm_compute in match start_heap 6 dust_heap 0 with Ok h => h | Err _ => [] end.
Lemma dust_start : start_heap 6 dust_heap 0 = Ok dust_named.
Proof. reflexivity. Qed.
Definition dust_rank (i : nat) : nat := match i with 0 => 2 | 1 => 1 | _ => 0 end.

Lemma dust_depends : forall i j, depends dust_named i j -> (i = 0 /\ (j = 1 \/ j = 2 \/ j = 3)) \/ (i = 1 /\ j = 0).
Proof.
  intros i j H. apply depends_ndeps in H. destruct i as [|[|[|[|i]]]]; simpl in H; intuition; subst; auto. destruct i; simpl in H; tauto.
Qed.
(** The condition of C115 holds: the only link back is the dust map's position, and the model's position comes first. *)
Lemma dust_back : reads_back_ok dust_named 0 dust_rank.
Proof.
  intros i n name s b nb HR En IN ED NE NR Eb.
  assert (HD : depends dust_named i b) by (exists n, name, s; auto).
  destruct (dust_depends _ _ HD) as [(-> & [-> | [-> | ->]])|(-> & ->)]; try (exfalso; apply NR; simpl; lia).
  split.
  - intros p HP. destruct (route_ends _ _ _ _ _ HP); auto.
  - intros l1 x sx l2 j p EL EJ FW HP.
    assert (j = 1).
    { destruct (dust_depends _ _ (proj1 FW)) as [(_ & [-> | [-> | ->]])|(X & _)]; auto; try discriminate.
      - exfalso. inversion HP as [|? k ? ? [K _] _]; subst. destruct (dust_depends _ _ K) as [(? & _)|(? & _)]; discriminate.
      - exfalso. inversion HP as [|? k ? ? [K _] _]; subst. destruct (dust_depends _ _ K) as [(? & _)|(? & _)]; discriminate. }
    subst j. cbn in Eb. injection Eb as <-. cbn [nd_setters] in EL. cbn in En. injection En as <-. cbn [nd_setters] in IN.
    assert (HL : In ("ra", as_function 2 "function_node_result") l1 /\ In ("dec", as_function 3 "function_node_result") l1).
    { do 7 (destruct l1 as [|[y sy] l1]; [injection EL as <- <- <-; try discriminate EJ|injection EL as <- <- EL]); simpl; tauto. }
    destruct IN as [IN|[IN|[IN|[]]]]; injection IN as <- <-; cbn [as_parameter st_src]; [| |discriminate ED];
      eexists; (split; [apply HL|discriminate]).
Qed.

(** One value per sample, each as required. *)
Definition sampled_as (n : nat) (P : DustModel.num -> Prop) (v : value DustModel.num) : Prop := exists xs, length xs = n /\ stored_as n xs v /\ Forall P xs.
Lemma const_sampled : forall n (P : DustModel.num -> Prop) x, P x -> sampled_as n P (if n =? 1 then Atom x else Arr (repeat (Atom x) n)).
Proof.
  intros n P x HP. exists (repeat x n). split; [apply repeat_length|]. split.
  - destruct (Nat.eqb_spec n 1) as [->|N]; [left; split; auto; exists x; auto|right; split; auto]. f_equal. clear. induction n; simpl; congruence.
  - apply Forall_forall. intros y Hy. apply repeat_spec in Hy. now subst.
Qed.
Lemma sampled_more : forall n (P Q : DustModel.num -> Prop) v, (forall x, P x -> Q x) -> sampled_as n P v -> sampled_as n Q v.
Proof. intros n P Q v H (xs & L & SA & F). exists xs. split; auto. split; auto. eapply Forall_impl; [|exact F]. exact H. Qed.
Lemma sampled_grows : forall n P v, sampled_as n P v -> exists u, expands n v u /\ sampled_as n P u.
Proof. intros n P v (xs & L & SA & F). exists v. split; [eapply stored_expands; eauto|]. exists xs. auto. Qed.
Definition dust_need (k : nat) (name : string) (x : DustModel.num) : Prop := if String.eqb name "dec" || (k =? 3) then on_sky x else True.

Lemma dust_runs : forall W (func : W -> nat -> dict (value DustModel.num) -> W * result (value DustModel.num)) (fine : W -> Prop) dm q ef gg num,
  pointwise_map dm q -> pointwise_func ef gg ->
  (forall w ra dec, func w 1 [("ra", ra); ("dec", dec)] = (w, wrapper_ebv (Some dm) ef ra dec)) ->
  (forall w, fine w -> exists w' v, func w 2 [] = (w', Ok v) /\ fine w' /\ sampled_as num (fun _ => True) v) ->
  (forall w, fine w -> exists w' v, func w 3 [] = (w', Ok v) /\ fine w' /\ sampled_as num on_sky v) ->
  forall k n, nth_error dust_named k = Some n -> node_runs func fine (fun k name v => sampled_as num (dust_need k name) v) dust_named num k n.
Proof.
  intros W func fine dm q ef gg num HM HF FD FR FS k n En.
  destruct k as [|[|[|[|k]]]]; [| | | |destruct k; discriminate]; cbn in En; injection En as <-; unfold node_runs, param_runs, function_runs;
    cbn [nd_str nd_setters nd_fn nd_func nd_args nd_outs]; (split; [reflexivity|]); split.
  - intros name s IN. repeat (destruct IN as [IN|IN]; [injection IN as <- <-; (split; [reflexivity|]); cbn [as_parameter as_function as_constant st_type st_dep st_src st_const]|]); [..|destruct IN].
    1, 2, 7: eexists _, _; (split; [reflexivity|]); (split; [reflexivity|]); (split; [simpl; tauto|]); intros v HV; (eapply sampled_more; [|exact HV]); intros x; cbn; tauto.
    all: eexists; (split; [reflexivity|]); apply const_sampled; exact I.
  - discriminate.
  - intros name s IN. repeat (destruct IN as [IN|IN]; [injection IN as <- <-; (split; [reflexivity|]); cbn [as_parameter as_function as_constant as_compute_output st_type st_dep st_src st_const]|]); [..|destruct IN].
    1, 2: eexists _, _; (split; [reflexivity|]); (split; [reflexivity|]); (split; [simpl; tauto|]); intros v HV; (eapply sampled_more; [|exact HV]); intros x; cbn; tauto.
    simpl; auto.
  - intros _ _. split; [discriminate|]. split.
    + intros a [<-|[<-|[]]]; eexists; (split; [simpl; eauto|discriminate]).
    + intros w args FW EA HG. destruct args as [|[a v1] [|[b v2] [|]]]; try discriminate. injection EA as -> ->.
      destruct (HG "ra" v1) as (ras & L1 & S1 & _); [simpl; auto|]. destruct (HG "dec" v2) as (decs & L2 & S2 & HD); [simpl; auto|].
      destruct (wrapper_stored dm q ef gg num ras decs v1 v2 HM HF L1 L2 S1 S2 HD) as (v & X1 & X2).
      exists w, v. rewrite FD, X1. split; auto. split; auto. apply sampled_grows. eexists. split; [|split; [exact X2|]].
      * rewrite map_length, combine_nth_pair; congruence.
      * apply Forall_forall. intros. exact I.
  - intros name s [IN|[]]. injection IN as <- <-. split; [reflexivity|]. simpl; auto.
  - intros _ _. split; [discriminate|]. split; [intros a []|]. intros w args FW EA HG. destruct args; [|discriminate].
    destruct (FR w FW) as (w' & v & E & FW' & HV). exists w', v. split; auto. split; auto. now apply sampled_grows.
  - intros name s [IN|[]]. injection IN as <- <-. split; [reflexivity|]. simpl; auto.
  - intros _ _. split; [discriminate|]. split; [intros a []|]. intros w args FW EA HG. destruct args; [|discriminate].
    destruct (FS w FW) as (w' & v & E & FW' & HV). exists w', v. split; auto. split; auto. now apply sampled_grows.
Qed.

Theorem C115_dust_model : forall W (func : W -> nat -> dict (value DustModel.num) -> W * result (value DustModel.num)) (fine : W -> Prop) dm q ef gg num w,
  (1 <= num)%Z -> fine w -> pointwise_map dm q -> pointwise_func ef gg ->
  (forall w ra dec, func w 1 [("ra", ra); ("dec", dec)] = (w, wrapper_ebv (Some dm) ef ra dec)) ->
  (forall w, fine w -> exists w' v, func w 2 [] = (w', Ok v) /\ fine w' /\ sampled_as (Z.to_nat num) (fun _ => True) v) ->
  (forall w, fine w -> exists w' v, func w 3 [] = (w', Ok v) /\ fine w' /\ sampled_as (Z.to_nat num) on_sky v) ->
  exists h' m ras decs es, sample_parameters func 6 dust_heap 0 GNone num w = Ok (h', m) /\
    has_values (sm_gs m) "ConstantSEDModel_0" "ra" ras /\ has_values (sm_gs m) "ConstantSEDModel_0" "dec" decs /\ has_values (sm_gs m) "ConstantSEDModel_0" "ebv" es /\
    length es = Z.to_nat num /\ forall i a d, nth_error ras i = Some a -> nth_error decs i = Some d -> nth_error es i = Some (gg (q (lon a) d)).
Proof.
  intros W func fine dm q ef gg num w HN FW HM HF FD FR FS.
  assert (WF : well_formed dust_heap).
  { intros k n En. destruct k as [|[|[|[|k]]]]; [| | | |destruct k; discriminate]; cbn in En; injection En as <-; cbn [nd_setters nd_outs map fst];
      (split; [repeat constructor; simpl; intuition discriminate|]); (split; [repeat constructor; simpl; tauto|]); intros o Ho; simpl in Ho;
      repeat (destruct Ho as [<-|Ho]; [eexists; split; [simpl; eauto|reflexivity]|]); destruct Ho. }
  destruct (C115_sampling_succeeds DustModel.num W func fine (fun k name v => sampled_as (Z.to_nat num) (dust_need k name) v) 6 dust_heap 0 GNone num w dust_named dust_rank)
    as (m & RUN & FM & NM & HV); auto.
  - exact I.
  - intros i j H. apply (start_heap_deps _ _ _ _ _ _ _ dust_start) in H. destruct (dust_depends _ _ H) as [(-> & [-> | [-> | ->]])|(-> & ->)]; simpl; lia.
  - intros k1 k2 n1 n2 _ _ H1 H2 EQ.
    destruct k1 as [|[|[|[|k1]]]]; [| | | |destruct k1; discriminate]; (destruct k2 as [|[|[|[|k2]]]]; [| | | |destruct k2; discriminate]);
      cbn in H1, H2; injection H1 as <-; injection H2 as <-; auto; discriminate EQ.
  - apply dust_back.
  - intros k n _ En. eapply dust_runs; eauto.
  - split; [exact I|]. intros nd name v [].
  - destruct (HV 0 _ "ra" _ (rt_refl _ _ _) eq_refl ltac:(simpl; eauto)) as (v1 & R1 & ras & L1 & S1 & _).
    destruct (HV 0 _ "dec" (as_function 3 "function_node_result") (rt_refl _ _ _) eq_refl ltac:(simpl; auto)) as (v2 & R2 & decs & L2 & S2 & HD).
    cbn [nd_str] in R1, R2. rewrite <- NM in *.
    assert (V1 : has_values (sm_gs m) "ConstantSEDModel_0" "ra" ras) by (split; eauto).
    assert (V2 : has_values (sm_gs m) "ConstantSEDModel_0" "dec" decs) by (split; eauto).
    destruct (C115_dust_values W func 6 dust_heap 0 GNone num w dust_named m dm q ef gg 0 _ 1 _ WF I RUN (rt_refl _ _ _) eq_refl eq_refl ltac:(lia)) with (ras := ras) (decs := decs)
      as (es & E1 & E2); auto.
    { simpl. tauto. }
    exists dust_named, m, ras, decs, es. repeat match goal with |- _ /\ _ => split end; auto. apply E1.
Qed.

(** ** What goes wrong otherwise *)
(** The order of the parameters matters: if E(B-V) comes before the position, the position is not there when the dust map asks for it. *)
Theorem C115_order_refuted : forall W (func : W -> nat -> dict (value DustModel.num) -> W * result (value DustModel.num)) num w, (1 <= num)%Z ->
  sample_parameters func 6 (dust_setters
    [("ebv", as_function 1 "ebv"); ("ra", as_function 2 "function_node_result"); ("dec", as_function 3 "function_node_result"); ("redshift", as_constant (Atom z))]) 0 GNone num w = Err KeyError.
Proof.
  intros W func num w HN. unfold sample_parameters. 
  match goal with |- context [start_heap ?f ?h ?r] => let x := eval vm_compute in (start_heap f h r) in change (start_heap f h r) with x end.
  unfold start_state, gs_new. destruct (num <? 1)%Z eqn:E; [apply Z.ltb_lt in E; lia|]. reflexivity.
Qed.
(** The dust map node cannot be sampled by itself: the model asks for its E(B-V) while it is waiting for the model's position. *)
Definition even_map : dustmap := fun c => match c with COne _ _ => Ok (Atom (Some 1%R)) | CMany l => Ok (Arr (map (fun _ => Atom (Some 1%R)) l)) end.
Theorem C115_helper_alone_refuted : forall W (w : W), exists func,
  (forall w ra dec, func w 1 [("ra", ra); ("dec", dec)] = (w, wrapper_ebv (Some even_map) None ra dec)) /\
  (forall w k, k = 2 \/ k = 3 -> func w k [] = (w, Ok (Atom (Some 0%R)))) /\
  (exists h' m, sample_parameters func 6 dust_heap 0 GNone 1 w = Ok (h', m)) /\
  exists e, sample_parameters func 6 dust_heap 1 GNone 1 w = Err e.
Proof.
  intros W w.
  set (func := fun (w : W) (k : nat) (args : dict (value DustModel.num)) =>
    (w, match args with [(_, ra); (_, dec)] => wrapper_ebv (Some even_map) None ra dec | _ => Ok (Atom (Some 0%R)) end)).
  exists func. split; [reflexivity|]. split; [reflexivity|]. split.
  - assert (ONE : forall P : DustModel.num -> Prop, P (Some 0%R) -> sampled_as 1 P (Atom (Some 0%R))).
    { intros P HP. exists [Some 0%R]. split; auto. split; [left; split; auto; eauto|]. auto. }
    destruct (C115_dust_model W func (fun _ => True) even_map (fun _ _ => Some 1%R) None (fun x => x) 1 w) as (h' & m & _ & _ & _ & RUN & _); auto.
    + lia.
    + split; reflexivity.
    + intros x; reflexivity.
    + intros w0 _. exists w0, (Atom (Some 0%R)). split; [reflexivity|]. split; auto.
    + intros w0 _. exists w0, (Atom (Some 0%R)). split; [reflexivity|]. split; auto. apply ONE. cbn. lra.
    + eauto.
  - eexists. reflexivity.
Qed.
End Case.
Print Assumptions C115_sampling_succeeds.
Print Assumptions C115_dust_model.
