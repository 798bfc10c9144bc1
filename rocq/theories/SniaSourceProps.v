(** Property C104: the supernovae of the example (src/lightcurvelynx/example_runs/simulate_snia.py 25-84).  Sampling the source that
    [construct_snia_source] builds always succeeds, and the parameters of the source, its host and the brightness function agree:
    in every sample x0 is the brightness of a supernova at the sampled redshift with the sampled stretch and colour. *)
From Coq Require Import Reals String Ascii List Bool Arith ZArith Lia Lra Relations.
From Verif Require Import Base BaseFacts RealBase ScipyModel ScipyProps SniaModel SniaProps GraphStateModel GraphStateProofs GraphStateProofs4 GraphStateProps
  NodeGraphModel NodeGraphProofs NodeGraphProps NodeDepProps NodeRunProps NodeChainProofs NodeChainProps SniaSourceModel SniaSourceFuncs SniaSourceRun.
From Verif Require NoiseModel.
Import ListNotations.
Open Scope string_scope.
Open Scope list_scope.
Open Scope R_scope.

(** ** Specification *)
(** A sampled parameter holds one number (not finite: [None]) for every sample. *)
Definition column (st : gs cell) (n : nat) (node name : string) (xs : list (option R)) : Prop :=
  length xs = n /\ reads st node name (if (n =? 1)%nat then Atom (CNum (hd None xs)) else GraphStateModel.Arr (map (fun x => Atom (CNum x)) xs)).
Definition rcolumn (st : gs cell) (n : nat) (node name : string) (xs : list R) : Prop := column st n node name (map Some xs).
(** The generators: node [i] takes its numbers from the given generator, or else from its own, beginning with number [start i].
    Uniform number [j] of node [i]; standard normal number [j], which may take several numbers of the stream. *)
Definition uniform_number (own : nat -> nat -> R) (given : option (nat -> R)) (start : nat -> nat) (i j : nat) : R :=
  match given with Some s => s | None => own i end (start i + j)%nat.
Definition normal_number (norm : (nat -> R) -> nat -> R * nat) (own : nat -> nat -> R) (given : option (nat -> R)) (start : nat -> nat) (i j : nat) : R :=
  let s := match given with Some s => s | None => own i end in
  fst (norm s (Nat.iter j (fun p => snd (norm s p)) (start i))).

(** ** Proofs *)
Section P.
Context (norm : (nat -> R) -> nat -> R * nat) (own : nat -> nat -> R) (given : option (nat -> R)).
Context (pa : parts) (num : Z) (tmin tmax : R) (fuel : nat) (w0 : world) (m : sm cell world).
Hypothesis HN : (1 <= num)%Z.
Notation n := (Z.to_nat num).
Notation heap := (the_heap tmin tmax).
Notation named := (the_named tmin tmax).
Notation func := (snia_func norm own given heap pa n).
Hypothesis RUN : sample_parameters func fuel heap 13 GNone num w0 = Ok (named, m).
Notation RD := (reads (sm_gs m)).
Context (calls : list (call cell world)).
Hypothesis CIN : Forall (call_in func named GNone n (sm_gs m)) calls.
Hypothesis CALL : forall k nd, nth_error named k = Some nd -> nd_fn nd = true -> In k (map c_node calls).
Definition start_of (k : nat) : nat := match find (fun c => (c_node c =? k)%nat) calls with Some c => spot given (c_before c) k | None => 0%nat end.
(** Node [k] takes the numbers from [start_of k] to [stop]. *)
Definition taken (k stop : nat) : Prop :=
  exists c, In c calls /\ c_node c = k /\ spot given (c_before c) k = start_of k /\ moved given (c_before c) k stop (c_after c).

Lemma Hn : (1 <= n)%nat. Proof using HN. lia. Qed.
Lemma WFH : well_formed heap. Proof. apply snia_wf. Qed.
Lemma VG : valid_given (@GNone cell). Proof. exact I. Qed.
Lemma no_given : forall node name, ~ exists v, given_value (@GNone cell) node name v.
Proof. intros node name [v []]. Qed.
Lemma rd_fun : forall node name v v', RD node name v -> RD node name v' -> v = v'.
Proof. unfold reads. intros. congruence. Qed.
Lemma reach : forall k nd, nth_error named k = Some nd -> reaches heap 13 k.
Proof.
  intros k nd E. apply snia_reaches. assert (L : (k < length named)%nat) by (apply nth_error_Some; congruence).
  change (length named) with 14%nat in L. exact L.
Qed.
Lemma const_at : forall k nd name s x, nth_error named k = Some nd -> In (name, s) (nd_setters nd) -> st_type s = SConst -> st_const s = Some (SniaSourceModel.num x) ->
  RD (nd_str nd) name (pack n (map Some (repeat x n))).
Proof using HN RUN CIN CALL.
  intros k nd name s x En HI T EC.
  destruct (C19_linked_agree _ _ _ _ _ _ _ _ _ _ _ WFH VG RUN k nd name s (reach _ _ En) En HI (no_given _ _)) as [_ Q].
  rewrite T in Q. destruct Q as (v & E & Q). rewrite EC in E. injection E as <-.
  rewrite <- (const_pack n x Hn). replace (n =? 1)%nat with (num =? 1)%Z; [exact Q|].
  destruct (Z.eqb_spec num 1) as [X|X]; destruct (Nat.eqb_spec n 1) as [Y|Y]; auto; lia.
Qed.
Lemma link_at : forall k nd name s j d v, nth_error named k = Some nd -> In (name, s) (nd_setters nd) -> (st_type s = SModel \/ st_type s = SFunc) ->
  st_dep s = Some j -> nth_error named j = Some d -> RD (nd_str d) (st_src s) v -> RD (nd_str nd) name v.
Proof using HN RUN CIN CALL.
  intros k nd name s j d v En HI T Ej Ed HR.
  destruct (C19_linked_agree _ _ _ _ _ _ _ _ _ _ _ WFH VG RUN k nd name s (reach _ _ En) En HI (no_given _ _)) as [_ Q].
  assert (X : exists j d v, st_dep s = Some j /\ nth_error named j = Some d /\ RD (nd_str nd) name v /\ RD (nd_str d) (st_src s) v) by (destruct T as [T|T]; rewrite T in Q; exact Q).
  destruct X as (j' & d' & v' & X1 & X2 & X3 & X4). assert (j' = j) by congruence. subst j'. assert (d' = d) by congruence. subst d'.
  now rewrite (rd_fun _ _ _ _ HR X4).
Qed.
Lemma node_at : forall k nd o, nth_error named k = Some nd -> nd_fn nd = true -> nd_outs nd = [o] -> NoDup (nd_args nd) ->
  exists args w1 w2 r u, func w1 k args = (w2, Ok r) /\ (forall a v, In a (nd_args nd) -> RD (nd_str nd) a v -> dget a args = Some v) /\
    expands n r u /\ RD (nd_str nd) o u /\ spot given w1 k = start_of k /\ (forall stop, moved given w1 k stop w2 -> taken k stop).
Proof using CIN CALL.
  intros k nd o En FN EO ND.
  assert (HF : exists c, find (fun c => (c_node c =? k)%nat) calls = Some c).
  { destruct (find (fun c => (c_node c =? k)%nat) calls) as [c|] eqn:E; eauto. exfalso.
    assert (HI := CALL _ _ En FN). apply in_map_iff in HI. destruct HI as (c & Ec & Hc). apply (find_none _ _ E) in Hc. apply Nat.eqb_neq in Hc. congruence. }
  destruct HF as (c & HF). destruct (find_some _ _ HF) as [Hc Ec]. apply Nat.eqb_eq in Ec.
  assert (ST : start_of k = spot given (c_before c) k) by (unfold start_of; now rewrite HF).
  rewrite Forall_forall in CIN. destruct (CIN c Hc) as (nd' & N1 & N2 & C1 & C2 & C3 & C4 & _). rewrite Ec in *. assert (nd' = nd) by congruence. subst nd'.
  destruct (C4 o EO (no_given _ _)) as (u & U1 & U2). exists (c_args c), (c_before c), (c_after c), (c_result c), u. split; auto. split; [|split; auto].
  - intros a v Ha HR. rewrite <- C2 in Ha. apply in_map_iff in Ha. destruct Ha as ([a' v'] & <- & HI). cbn [fst] in *.
    rewrite (rd_fun _ _ _ _ HR (C3 _ _ HI)). apply In_dget; auto. rewrite <- C2 in ND. exact ND.
  - split; auto. split; auto. intros stop MV. exists c. auto.
Qed.
Notation res := "function_node_result".
Ltac at_node := fun k nd En FN EO EA =>
  destruct (node_at k nd res En FN EO) as (args & w1 & w2 & r & u & C1 & C2 & C3 & C4 & C5 & C6); [rewrite EA; apply nodupb_ok; reflexivity|]; rewrite EA in C2.
Ltac finish C1 C3 O1 u := rewrite O1 in C1; injection C1 as <- <-; apply pack_expanded in C3; [|exact Hn]; subst u.
Lemma uniform_at : forall k nd hn lo hi, nth_error named k = Some nd -> nth_error heap k = Some hn -> nd_class hn = "NumpyRandomFunc" -> nd_func hn = Some "uniform" ->
  nd_fn nd = true -> nd_outs nd = [res] -> nd_args nd = ["low"; "high"] ->
  RD (nd_str nd) "low" (pack n (map Some lo)) -> RD (nd_str nd) "high" (pack n (map Some hi)) -> length lo = n -> length hi = n ->
  exists out, length out = n /\ RD (nd_str nd) res (pack n (map Some out)) /\
    (forall j a b, nth_error lo j = Some a -> nth_error hi j = Some b -> nth_error out j = Some (a + (b - a) * uniform_number own given start_of k j)) /\
    taken k (start_of k + n).
Proof using HN RUN CIN CALL.
  intros k nd hn lo hi En Eh HC HF FN EO EA R1 R2 L1 L2. at_node k nd En FN EO EA.
  destruct (run_uniform norm own given heap pa n Hn w1 k _ args lo hi Eh HC HF) as (w' & out & O1 & O2 & O3 & O4); auto; try (apply C2; simpl; auto; fail).
  finish C1 C3 O1 u. exists out. split; auto. split; auto. rewrite C5 in *. split; auto.
Qed.
Lemma normal_at : forall k nd hn lo sc, nth_error named k = Some nd -> nth_error heap k = Some hn -> nd_class hn = "NumpyRandomFunc" -> nd_func hn = Some "normal" ->
  nd_fn nd = true -> nd_outs nd = [res] -> nd_args nd = ["loc"; "scale"] ->
  RD (nd_str nd) "loc" (pack n (map Some lo)) -> RD (nd_str nd) "scale" (pack n (map Some sc)) -> length lo = n -> length sc = n ->
  exists out, length out = n /\ RD (nd_str nd) res (pack n (map Some out)) /\
    (forall j a b, nth_error lo j = Some a -> nth_error sc j = Some b -> nth_error out j = Some (a + b * normal_number norm own given start_of k j)) /\
    taken k (after_normals norm (stream_of own given k) (start_of k) n).
Proof using HN RUN CIN CALL.
  intros k nd hn lo sc En Eh HC HF FN EO EA R1 R2 L1 L2. at_node k nd En FN EO EA.
  destruct (run_normal norm own given heap pa n Hn w1 k _ args lo sc Eh HC HF) as (w' & out & O1 & O2 & O3 & O4); auto; try (apply C2; simpl; auto; fail).
  finish C1 C3 O1 u. exists out. split; auto. split; auto. rewrite C5 in *. split; auto.
Qed.
Lemma pdf_at : forall k nd hn, nth_error named k = Some nd -> nth_error heap k = Some hn -> nd_class hn = "SamplePDF" ->
  nd_fn nd = true -> nd_outs nd = [res] -> nd_args nd = [] ->
  exists out, length out = n /\ RD (nd_str nd) res (pack n (map Some out)) /\
    (forall j, (j < n)%nat -> nth_error out j = Some (pa_zinv pa (uniform_number own given start_of k j))) /\ taken k (start_of k + n).
Proof using HN RUN CIN CALL.
  intros k nd hn En Eh HC FN EO EA. at_node k nd En FN EO EA.
  destruct (run_pdf norm own given heap pa n Hn w1 k _ args Eh HC) as (w' & out & O1 & O2 & O3 & O4).
  finish C1 C3 O1 u. exists out. split; auto. split; auto. rewrite C5 in *. split; auto.
Qed.
Lemma x1_at : forall k nd hn mass, nth_error named k = Some nd -> nth_error heap k = Some hn -> nd_class hn = "HostmassX1Func" ->
  nd_fn nd = true -> nd_outs nd = [res] -> nd_args nd = ["hostmass"] ->
  RD (nd_str nd) "hostmass" (pack n (map Some mass)) -> length mass = n ->
  exists out, length out = n /\ RD (nd_str nd) res (pack n (map Some out)) /\
    (forall j a, nth_error mass j = Some a ->
      nth_error out j = Some ((if Rltb a 10 then x1_lt (pa_x1 pa) else x1_ge (pa_x1 pa)) (uniform_number own given start_of k (x1_number n mass j)))) /\ taken k (start_of k + n).
Proof using HN RUN CIN CALL.
  intros k nd hn mass En Eh HC FN EO EA R1 L1. at_node k nd En FN EO EA.
  destruct (run_x1 norm own given heap pa n Hn w1 k _ args mass Eh HC) as (w' & out & O1 & O2 & O3 & O4); auto; try (apply C2; simpl; auto; fail).
  finish C1 C3 O1 u. exists out. split; auto. split; auto. rewrite C5 in *. split; auto.
Qed.
Lemma distmod_at : forall k nd hn zs, nth_error named k = Some nd -> nth_error heap k = Some hn -> nd_class hn = "DistModFromRedshift" ->
  nd_fn nd = true -> nd_outs nd = [res] -> nd_args nd = ["redshift"] ->
  RD (nd_str nd) "redshift" (pack n (map Some zs)) -> length zs = n -> RD (nd_str nd) res (pack n (map (distmod 73 (3 / 10)) zs)).
Proof using HN RUN CIN CALL.
  intros k nd hn zs En Eh HC FN EO EA R1 L1. at_node k nd En FN EO EA.
  destruct (run_distmod norm own given heap pa n Hn w1 k _ args zs Eh HC) as (w' & O1); auto; try (apply C2; simpl; auto; fail).
  finish C1 C3 O1 u. exact C4.
Qed.
Lemma x0_at : forall k nd hn mu x1 c al be ma, nth_error named k = Some nd -> nth_error heap k = Some hn -> nd_class hn = "X0FromDistMod" ->
  nd_fn nd = true -> nd_outs nd = [res] -> nd_args nd = ["distmod"; "x1"; "c"; "alpha"; "beta"; "m_abs"] ->
  RD (nd_str nd) "distmod" (pack n mu) -> RD (nd_str nd) "x1" (pack n x1) -> RD (nd_str nd) "c" (pack n c) -> RD (nd_str nd) "alpha" (pack n al) ->
  RD (nd_str nd) "beta" (pack n be) -> RD (nd_str nd) "m_abs" (pack n ma) ->
  length mu = n -> length x1 = n -> length c = n -> length al = n -> length be = n -> length ma = n ->
  exists out, length out = n /\ RD (nd_str nd) res (pack n out) /\
    forall j mu' x1' c' al' be' ma', nth_error mu j = Some mu' -> nth_error x1 j = Some x1' -> nth_error c j = Some c' -> nth_error al j = Some al' ->
      nth_error be j = Some be' -> nth_error ma j = Some ma' -> nth_error out j = Some (x0_cell mu' x1' c' al' be' ma').
Proof using HN RUN CIN CALL.
  intros k nd hn mu x1 c al be ma En Eh HC FN EO EA R1 R2 R3 R4 R5 R6 L1 L2 L3 L4 L5 L6. at_node k nd En FN EO EA.
  destruct (run_x0 norm own given heap pa n Hn w1 k _ args mu x1 c al be ma Eh HC) as (w' & out & O1 & O2 & O3); auto; try (apply C2; simpl; tauto).
  finish C1 C3 O1 u. exists out. auto.
Qed.
Lemma nth_some : forall (l : list R) j, length l = n -> (j < n)%nat -> nth_error l j = Some (nth j l 0).
Proof. intros l j HL Hj. apply nth_error_nth'. lia. Qed.
Lemma nth_const : forall (x : R) j, (j < n)%nat -> nth_error (repeat x n) j = Some x.
Proof. intros. now apply nth_repeat_some. Qed.
Lemma nth_val : forall (l : list R) j x, nth_error l j = Some x -> nth j l 0 = x.
Proof. intros l j x H. now apply nth_error_nth. Qed.

(** The uniform node [k] with constants [a], [b]. *)
Lemma uniform_const : forall k nd hn a b, nth_error named k = Some nd -> nth_error heap k = Some hn -> nd_class hn = "NumpyRandomFunc" -> nd_func hn = Some "uniform" ->
  nd_fn nd = true -> nd_outs nd = [res] -> nd_args nd = ["low"; "high"] ->
  (exists s, In ("low", s) (nd_setters nd) /\ st_type s = SConst /\ st_const s = Some (SniaSourceModel.num a)) ->
  (exists s, In ("high", s) (nd_setters nd) /\ st_type s = SConst /\ st_const s = Some (SniaSourceModel.num b)) ->
  exists out, length out = n /\ RD (nd_str nd) res (pack n (map Some out)) /\
    (forall j, (j < n)%nat -> nth j out 0 = a + (b - a) * uniform_number own given start_of k j) /\ taken k (start_of k + n).
Proof using HN RUN CIN CALL.
  intros k nd hn a b En Eh HC HF FN EO EA (s1 & I1 & T1 & V1) (s2 & I2 & T2 & V2).
  destruct (uniform_at k nd hn (repeat a n) (repeat b n) En Eh HC HF FN EO EA) as (out & O1 & O2 & O3 & O4); try apply repeat_length.
  - exact (const_at k nd _ s1 a En I1 T1 V1).
  - exact (const_at k nd _ s2 b En I2 T2 V2).
  - exists out. split; auto. split; auto. split; auto. intros j Hj. apply nth_val. apply O3; now apply nth_const.
Qed.
Lemma normal_const : forall k nd hn lo b, nth_error named k = Some nd -> nth_error heap k = Some hn -> nd_class hn = "NumpyRandomFunc" -> nd_func hn = Some "normal" ->
  nd_fn nd = true -> nd_outs nd = [res] -> nd_args nd = ["loc"; "scale"] ->
  RD (nd_str nd) "loc" (pack n (map Some lo)) -> length lo = n ->
  (exists s, In ("scale", s) (nd_setters nd) /\ st_type s = SConst /\ st_const s = Some (SniaSourceModel.num b)) ->
  exists out, length out = n /\ RD (nd_str nd) res (pack n (map Some out)) /\
    (forall j, (j < n)%nat -> nth j out 0 = nth j lo 0 + b * normal_number norm own given start_of k j) /\ taken k (after_normals norm (stream_of own given k) (start_of k) n).
Proof using HN RUN CIN CALL.
  intros k nd hn lo b En Eh HC HF FN EO EA R1 L1 (s2 & I2 & T2 & V2).
  destruct (normal_at k nd hn lo (repeat b n) En Eh HC HF FN EO EA R1) as (out & O1 & O2 & O3 & O4); auto; try apply repeat_length.
  - exact (const_at k nd _ s2 b En I2 T2 V2).
  - exists out. split; auto. split; auto. split; auto. intros j Hj. apply nth_val. apply O3; [now apply nth_some|now apply nth_const].
Qed.
Ltac cst := eexists; split; [cbn; tauto|split; reflexivity].
Lemma linked : forall k nd name j d src v, nth_error named k = Some nd -> nth_error named j = Some d ->
  (exists s, In (name, s) (nd_setters nd) /\ (st_type s = SModel \/ st_type s = SFunc) /\ st_dep s = Some j /\ st_src s = src) ->
  RD (nd_str d) src v -> RD (nd_str nd) name v.
Proof using HN RUN CIN CALL.
  intros k nd name j d src v En Ed (s & H1 & H2 & H3 & H4) HR. subst src. exact (link_at k nd name s j d v En H1 H2 H3 Ed HR).
Qed.
Lemma function_nodes : forall k nd, nth_error named k = Some nd -> nd_fn nd = true -> exists name s, In (name, s) (nd_setters nd) /\ st_type s = SCompute.
Proof.
  intros k nd En FN. assert (WF' : well_formed named) by (apply wfb_ok; vm_compute; reflexivity).
  assert (O : exists o, In o (nd_outs nd)).
  { assert (L : (k < length named)%nat) by (apply nth_error_Some; congruence). change (length named) with 14%nat in L.
    do 14 (destruct k as [|k]; [cbn in En; injection En as <-; first [discriminate FN|eexists; left; reflexivity]|]). lia. }
  destruct O as (o & Ho). destruct (WF' k nd En) as (_ & _ & Q). destruct (Q o Ho) as (s & Q1 & Q2). eauto.
Qed.
Lemma all_columns : exists hra hdec mass z ra dec t0 x1 c ma x0,
  let C := rcolumn (sm_gs m) n in
  let U := uniform_number own given start_of in
  let G := normal_number norm own given start_of in
  C "host" "ra" hra /\ C "host" "dec" hdec /\ C "host" "hostmass" mass /\ C "host" "redshift" z /\
  C "source" "ra" ra /\ C "source" "dec" dec /\ C "source" "redshift" z /\ C "source" "t0" t0 /\ C "source" "x1" x1 /\ C "source" "c" c /\
  column (sm_gs m) n "source" "x0" x0 /\
  column (sm_gs m) n "x0_func" "distmod" (map (distmod 73 (3 / 10)) z) /\ C "x0_func" "x1" x1 /\ C "x0_func" "c" c /\ C "x0_func" "m_abs" ma /\
  (forall i, In i [0; 1; 2; 3; 6; 10]%nat -> taken i (start_of i + n)) /\
  (forall i, In i [7; 8; 11; 12]%nat -> taken i (after_normals norm (stream_of own given i) (start_of i) n)) /\
  forall j, (j < n)%nat ->
    nth j hra 0 = - (1 / 2) + (1 / 2 - - (1 / 2)) * U 0%nat j /\ nth j hdec 0 = - (1 / 2) + (1 / 2 - - (1 / 2)) * U 1%nat j /\
    nth j mass 0 = 7 + (12 - 7) * U 2%nat j /\ nth j z 0 = pa_zinv pa (U 3%nat j) /\
    nth j ra 0 = nth j hra 0 + 1 / 100 * G 11%nat j /\ nth j dec 0 = nth j hdec 0 + 1 / 100 * G 12%nat j /\
    nth j t0 0 = tmin + (tmax - tmin) * U 10%nat j /\
    nth j x1 0 = (if Rltb (nth j mass 0) 10 then x1_lt (pa_x1 pa) else x1_ge (pa_x1 pa)) (U 6%nat (x1_number n mass j)) /\
    nth j c 0 = nth j (repeat 0 n) 0 + 2 / 100 * G 7%nat j /\
    nth j ma 0 = nth j (repeat (- (193 / 10)) n) 0 + 1 / 10 * G 8%nat j /\
    nth j x0 None = match distmod 73 (3 / 10) (nth j z 0) with
                    | Some mu => Some (x0_from_distmod mu (nth j x1 0) (nth j c 0) (14 / 100) (31 / 10) (nth j ma 0))
                    | None => None end.
Proof using HN RUN CIN CALL.
  destruct (uniform_const 0 _ _ (- (1 / 2)) (1 / 2) eq_refl eq_refl eq_refl eq_refl eq_refl eq_refl eq_refl ltac:(cst) ltac:(cst)) as (hra & L0 & R0 & D0 & T0).
  destruct (uniform_const 1 _ _ (- (1 / 2)) (1 / 2) eq_refl eq_refl eq_refl eq_refl eq_refl eq_refl eq_refl ltac:(cst) ltac:(cst)) as (hdec & L1 & R1 & D1 & T1).
  destruct (uniform_const 2 _ _ 7 12 eq_refl eq_refl eq_refl eq_refl eq_refl eq_refl eq_refl ltac:(cst) ltac:(cst)) as (mass & L2 & R2 & D2 & T2).
  destruct (pdf_at 3 _ _ eq_refl eq_refl eq_refl eq_refl eq_refl eq_refl) as (z & L3 & R3 & D3 & T3).
  assert (LK : forall k nd name j d src v, nth_error named k = Some nd -> nth_error named j = Some d ->
    (exists s, In (name, s) (nd_setters nd) /\ (st_type s = SModel \/ st_type s = SFunc) /\ st_dep s = Some j /\ st_src s = src) ->
    RD (nd_str d) src v -> RD (nd_str nd) name v) by exact linked.
  assert (H4a : RD "host" "ra" (pack n (map Some hra))) by (apply (LK 4%nat _ "ra" 0%nat _ res _ eq_refl eq_refl ltac:(eexists; split; [cbn; tauto|cbn; auto]) R0)).
  assert (H4b : RD "host" "dec" (pack n (map Some hdec))) by (apply (LK 4%nat _ "dec" 1%nat _ res _ eq_refl eq_refl ltac:(eexists; split; [cbn; tauto|cbn; auto]) R1)).
  assert (H4c : RD "host" "hostmass" (pack n (map Some mass))) by (apply (LK 4%nat _ "hostmass" 2%nat _ res _ eq_refl eq_refl ltac:(eexists; split; [cbn; tauto|cbn; auto]) R2)).
  assert (H4d : RD "host" "redshift" (pack n (map Some z))) by (apply (LK 4%nat _ "redshift" 3%nat _ res _ eq_refl eq_refl ltac:(eexists; split; [cbn; tauto|cbn; auto]) R3)).
  assert (I5 := LK 5%nat _ "redshift" 4%nat _ "redshift" _ eq_refl eq_refl ltac:(eexists; split; [cbn; tauto|cbn; auto]) H4d).
  assert (R5 := distmod_at 5 _ _ z eq_refl eq_refl eq_refl eq_refl eq_refl eq_refl I5 L3).
  assert (I6 := LK 6%nat _ "hostmass" 4%nat _ "hostmass" _ eq_refl eq_refl ltac:(eexists; split; [cbn; tauto|cbn; auto]) H4c).
  destruct (x1_at 6 _ _ mass eq_refl eq_refl eq_refl eq_refl eq_refl eq_refl I6 L2) as (x1 & L6 & R6 & D6 & T6).
  assert (I7 := const_at 7 _ "loc" _ 0 eq_refl ltac:(cbn; left; reflexivity) eq_refl eq_refl).
  destruct (normal_const 7 _ _ (repeat 0 n) (2 / 100) eq_refl eq_refl eq_refl eq_refl eq_refl eq_refl eq_refl I7 (repeat_length _ _) ltac:(cst)) as (c & L7 & R7 & D7 & T7).
  assert (I8 := const_at 8 _ "loc" _ (- (193 / 10)) eq_refl ltac:(cbn; left; reflexivity) eq_refl eq_refl).
  destruct (normal_const 8 _ _ (repeat (- (193 / 10)) n) (1 / 10) eq_refl eq_refl eq_refl eq_refl eq_refl eq_refl eq_refl I8 (repeat_length _ _) ltac:(cst)) as (ma & L8 & R8 & D8 & T8).
  assert (I9a := LK 9%nat _ "distmod" 5%nat _ res _ eq_refl eq_refl ltac:(eexists; split; [cbn; tauto|cbn; auto]) R5).
  assert (I9b := LK 9%nat _ "x1" 6%nat _ res _ eq_refl eq_refl ltac:(eexists; split; [cbn; tauto|cbn; auto]) R6).
  assert (I9c := LK 9%nat _ "c" 7%nat _ res _ eq_refl eq_refl ltac:(eexists; split; [cbn; tauto|cbn; auto]) R7).
  assert (I9d := const_at 9 _ "alpha" _ (14 / 100) eq_refl ltac:(cbn; do 3 right; left; reflexivity) eq_refl eq_refl).
  assert (I9e := const_at 9 _ "beta" _ (31 / 10) eq_refl ltac:(cbn; do 4 right; left; reflexivity) eq_refl eq_refl).
  assert (I9f := LK 9%nat _ "m_abs" 8%nat _ res _ eq_refl eq_refl ltac:(eexists; split; [cbn; tauto|cbn; auto]) R8).
  destruct (x0_at 9 _ _ (map (distmod 73 (3 / 10)) z) (map Some x1) (map Some c) (map Some (repeat (14 / 100) n)) (map Some (repeat (31 / 10) n)) (map Some ma)
     eq_refl eq_refl eq_refl eq_refl eq_refl eq_refl I9a I9b I9c I9d I9e I9f) as (x0 & L9 & R9 & D9); try (rewrite map_length; auto; apply repeat_length).
  destruct (uniform_const 10 _ _ tmin tmax eq_refl eq_refl eq_refl eq_refl eq_refl eq_refl eq_refl ltac:(cst) ltac:(cst)) as (t0 & L10 & R10 & D10 & T10).
  assert (I11 := LK 11%nat _ "loc" 4%nat _ "ra" _ eq_refl eq_refl ltac:(eexists; split; [cbn; tauto|cbn; auto]) H4a).
  destruct (normal_const 11 _ _ hra (1 / 100) eq_refl eq_refl eq_refl eq_refl eq_refl eq_refl eq_refl I11 L0 ltac:(cst)) as (ra & L11 & R11 & D11 & T11).
  assert (I12 := LK 12%nat _ "loc" 4%nat _ "dec" _ eq_refl eq_refl ltac:(eexists; split; [cbn; tauto|cbn; auto]) H4b).
  destruct (normal_const 12 _ _ hdec (1 / 100) eq_refl eq_refl eq_refl eq_refl eq_refl eq_refl eq_refl I12 L1 ltac:(cst)) as (dec & L12 & R12 & D12 & T12).
  assert (J1 := LK 13%nat _ "ra" 11%nat _ res _ eq_refl eq_refl ltac:(eexists; split; [cbn; tauto|cbn; auto]) R11).
  assert (J2 := LK 13%nat _ "dec" 12%nat _ res _ eq_refl eq_refl ltac:(eexists; split; [cbn; tauto|cbn; auto]) R12).
  assert (J3 := LK 13%nat _ "redshift" 4%nat _ "redshift" _ eq_refl eq_refl ltac:(eexists; split; [cbn; tauto|cbn; auto]) H4d).
  assert (J4 := LK 13%nat _ "t0" 10%nat _ res _ eq_refl eq_refl ltac:(eexists; split; [cbn; tauto|cbn; auto]) R10).
  assert (J5 := LK 13%nat _ "x0" 9%nat _ res _ eq_refl eq_refl ltac:(eexists; split; [cbn; tauto|cbn; auto]) R9).
  assert (J6 := LK 13%nat _ "x1" 6%nat _ res _ eq_refl eq_refl ltac:(eexists; split; [cbn; tauto|cbn; auto]) R6).
  assert (J7 := LK 13%nat _ "c" 7%nat _ res _ eq_refl eq_refl ltac:(eexists; split; [cbn; tauto|cbn; auto]) R7).
  exists hra, hdec, mass, z, ra, dec, t0, x1, c, ma, x0. cbv zeta. unfold rcolumn, column.
  do 15 (split; [split; [rewrite ?map_length; auto|assumption]|]).
  split. { intros i Hi. simpl in Hi. destruct Hi as [<-|[<-|[<-|[<-|[<-|[<-|[]]]]]]]; assumption. }
  split. { intros i Hi. simpl in Hi. destruct Hi as [<-|[<-|[<-|[<-|[]]]]]; assumption. }
  intros j Hj.
  split; [exact (D0 j Hj)|]. split; [exact (D1 j Hj)|]. split; [exact (D2 j Hj)|].
  split. { apply nth_val. exact (D3 j Hj). }
  split; [exact (D11 j Hj)|]. split; [exact (D12 j Hj)|]. split; [exact (D10 j Hj)|].
  split. { apply nth_val. apply (D6 j (nth j mass 0)). now apply nth_some. }
  split; [exact (D7 j Hj)|]. split; [exact (D8 j Hj)|].
  apply nth_error_nth.
  rewrite (D9 j (distmod 73 (3 / 10) (nth j z 0)) (Some (nth j x1 0)) (Some (nth j c 0)) (Some (14 / 100)) (Some (31 / 10)) (Some (nth j ma 0))).
  - reflexivity.
  - rewrite nth_error_map, (nth_some z) by auto. reflexivity.
  - rewrite nth_error_map, (nth_some x1) by auto. reflexivity.
  - rewrite nth_error_map, (nth_some c) by auto. reflexivity.
  - rewrite nth_error_map, nth_const by auto. reflexivity.
  - rewrite nth_error_map, nth_const by auto. reflexivity.
  - rewrite nth_error_map, (nth_some ma) by auto. reflexivity.
Qed.
End P.

Lemma snia_samples : forall norm own given pa tmin tmax fuel n w, (14 < fuel)%nat -> (1 <= n)%Z ->
  exists m, sample_parameters (snia_func norm own given (the_heap tmin tmax) pa (Z.to_nat n)) fuel (the_heap tmin tmax) 13 GNone n w = Ok (the_named tmin tmax, m) /\
    gs_n (sm_gs m) = Z.to_nat n.
Proof.
  intros norm own given pa tmin tmax fuel n w HF HN. assert (Hn : (1 <= Z.to_nat n)%nat) by lia.
  assert (WF : well_formed (the_heap tmin tmax)) by apply snia_wf.
  assert (ND : no_dangling (the_heap tmin tmax)) by apply snia_deps.
  assert (AC : acyclic (the_heap tmin tmax)) by apply snia_deps.
  assert (SH : start_heap fuel (the_heap tmin tmax) 13 = Ok (the_named tmin tmax)).
  { assert (EF : fuel = (15 + (fuel - 15))%nat) by lia. rewrite EF. apply snia_names. }
  assert (DN : distinct_names (the_heap tmin tmax) (the_named tmin tmax) 13) by apply snia_distinct.
  destruct (C103_sampling_succeeds cell world (snia_func norm own given (the_heap tmin tmax) pa (Z.to_nat n)) (fun _ => True) (good (Z.to_nat n))
     fuel (the_heap tmin tmax) 13 GNone n w (the_named tmin tmax) WF I ND AC HN HF I SH DN) as (m & M1 & _ & M3 & _).
  - intros k nd _ En. now apply nodes_run.
  - split; [exact I|]. intros nd name v [].
  - exists m. split; [exact M1|exact M3].
Qed.
Lemma snia_built : forall pinv t times zpdf stream zinv ge lt, pinv zpdf = Ok zinv -> pinv (x1_pdf 11) = Ok ge -> pinv (x1_pdf 9) = Ok lt ->
  construct_snia_source pinv t times zpdf stream =
    Ok (the_heap (list_min t times) (list_max t times), 13%nat, mkParts zinv (mkX1 ge lt (fresh stream))).
Proof.
  intros pinv t times zpdf stream zinv ge lt E1 E2 E3. unfold construct_snia_source, x1_make. rewrite E1, E2, E3. cbn [bind].
  unfold snia_constants. rewrite snia_nodes_eq. reflexivity.
Qed.
(** ** C104 *)
(** The source is built whenever scipy can invert the three densities (the redshifts' and the two of x1). *)
Theorem C104_built : forall pinv t times zpdf stream,
  (exists model, construct_snia_source pinv t times zpdf stream = Ok model) <->
  (exists a b c, pinv zpdf = Ok a /\ pinv (x1_pdf 11) = Ok b /\ pinv (x1_pdf 9) = Ok c).
Proof.
  intros. unfold construct_snia_source, x1_make. split.
  - intros [model H]. destruct (pinv zpdf) as [a|]; [|discriminate]. destruct (pinv (x1_pdf 11)) as [b|]; [|discriminate].
    destruct (pinv (x1_pdf 9)) as [c|]; [|discriminate]. exists a, b, c. auto.
  - intros (a & b & c & -> & -> & ->). cbn [bind]. unfold snia_constants. rewrite snia_nodes_eq. cbn [bind]. eauto.
Qed.
(** One sample of the source: what its parameters have to do with each other. *)
Record supernova := mkSn { s_hra : R; s_hdec : R; s_mass : R; s_z : R; s_ra : R; s_dec : R; s_t0 : R; s_x1 : R; s_c : R; s_mabs : R; s_x0 : option R }.
Definition consistent norm own given (start number : nat -> nat) (zinv light heavy : R -> R) (tmin tmax : R) (j : nat) (s : supernova) : Prop :=
  let uniform := uniform_number own given start in
  let normal := normal_number norm own given start in
  (* the host: within half a degree of the origin, of mass 7 to 12, redshift from the given density *)
  s_hra s = uniform 0%nat j - 1 / 2 /\ s_hdec s = uniform 1%nat j - 1 / 2 /\
  s_mass s = 7 + 5 * uniform 2%nat j /\ s_z s = zinv (uniform 3%nat j) /\
  (* the supernova: near the host, some time in the survey, stretch from the density for the host's mass *)
  s_ra s = s_hra s + normal 11%nat j / 100 /\ s_dec s = s_hdec s + normal 12%nat j / 100 /\
  s_t0 s = tmin + (tmax - tmin) * uniform 10%nat j /\
  s_x1 s = (if Rlt_dec (s_mass s) 10 then light else heavy) (uniform 6%nat (number j)) /\
  s_c s = 2 / 100 * normal 7%nat j /\ s_mabs s = - (193 / 10) + normal 8%nat j / 10 /\
  (* the brightness: the Tripp relation at the distance modulus of the redshift *)
  match distmod 73 (3 / 10) (s_z s), s_x0 s with
  | Some mu, Some x0 => 0 < x0 /\ mu = - (25 / 10) * NoiseModel.log10 x0 + 14 / 100 * s_x1 s - 31 / 10 * s_c s - s_mabs s + 10635 / 1000
  | None, None => True
  | _, _ => False
  end.
(** The random numbers: every node takes as many as it needs; its own generator goes on from where it was; with a given generator (and a
    normal distribution that never steps back) no number is used by two nodes. *)
Definition random_nodes : list nat := [0; 1; 2; 3; 6; 7; 8; 10; 11; 12]%nat.
Definition stop_at (norm : (nat -> R) -> nat -> R * nat) own given (start : nat -> nat) (n i : nat) : nat :=
  let s := match given with Some s => s | None => own i end in
  if existsb (Nat.eqb i) [7; 8; 11; 12]%nat then Nat.iter n (fun p => snd (norm s p)) (start i) else (start i + n)%nat.
Definition numbers_used norm own given (start : nat -> nat) (n : nat) (w w' : world) : Prop :=
  let stop := stop_at norm own given start n in
  match given with
  | None => w_given w' = w_given w /\ forall i, In i random_nodes -> start i = w_own w i /\ w_own w' i = stop i
  | Some _ =>
      (forall i, w_own w' i = w_own w i) /\
      ((forall s p, (p <= snd (norm s p))%nat) -> forall i, In i random_nodes -> (w_given w <= start i /\ stop i <= w_given w')%nat /\
        forall k, In k random_nodes -> i <> k -> (stop i <= start k \/ stop k <= start i)%nat)
  end.
Lemma own_threaded : forall given (calls : list (call cell world)) w w', given = None -> threaded w calls w' ->
  List.Forall (fun c => moved given (c_before c) (c_node c) (spot given (c_after c) (c_node c)) (c_after c)) calls -> NoDup (map c_node calls) ->
  w_given w' = w_given w /\ (forall k, ~ In k (map c_node calls) -> w_own w' k = w_own w k) /\
  forall c, In c calls -> w_own (c_before c) (c_node c) = w_own w (c_node c) /\ w_own w' (c_node c) = w_own (c_after c) (c_node c).
Proof.
  intros given calls. induction calls as [|c cs IH]; intros w w' G T F ND; simpl in T.
  - subst. split; auto. split; auto. intros c [].
  - destruct T as [<- T]. inversion F as [|? ? F1 F2]; subst. inversion ND as [|? ? N1 N2]; subst.
    destruct (IH _ _ eq_refl T F2 N2) as (I1 & I2 & I3). destruct F1 as (_ & M1 & M2). split; [congruence|]. split.
    + intros k Hk. simpl in Hk. rewrite I2 by tauto. apply M2. intros ->. tauto.
    + intros d [<-|Hd]; [split; auto; now apply I2|]. destruct (I3 d Hd) as [J1 J2]. split; auto. rewrite J1. apply M2.
      intros E. apply N1. rewrite <- E. now apply in_map.
Qed.
Lemma given_threaded : forall given s (calls : list (call cell world)) w w', given = Some s -> threaded w calls w' ->
  List.Forall (fun c => moved given (c_before c) (c_node c) (spot given (c_after c) (c_node c)) (c_after c)) calls -> w_own w' = w_own w.
Proof.
  intros given s calls. induction calls as [|c cs IH]; intros w w' G T F; simpl in T; [congruence|]. destruct T as [<- T]. inversion F as [|? ? F1 F2]; subst.
  rewrite (IH _ _ eq_refl T F2). destruct F1 as (_ & M). exact M.
Qed.
Lemma used_spec : forall norm own given pa tmin tmax n m w calls, (1 <= n)%nat ->
  threaded w calls (sm_w m) -> NoDup (map c_node calls) ->
  List.Forall (call_in (snia_func norm own given (the_heap tmin tmax) pa n) (the_named tmin tmax) GNone n (sm_gs m)) calls ->
  (forall i, In i [0; 1; 2; 3; 6; 10]%nat -> taken given calls i (start_of given calls i + n)) ->
  (forall i, In i [7; 8; 11; 12]%nat -> taken given calls i (after_normals norm (stream_of own given i) (start_of given calls i) n)) ->
  numbers_used norm own given (start_of given calls) n w (sm_w m).
Proof.
  intros norm own given pa tmin tmax n m w calls Hn TH ND CIN T1 T2.
  assert (T : forall i, In i random_nodes -> taken given calls i (stop_at norm own given (start_of given calls) n i)).
  { intros i Hi. unfold stop_at. destruct (existsb (Nat.eqb i) [7; 8; 11; 12]%nat) eqn:E.
    - apply existsb_exists in E. destruct E as (x & X1 & X2). apply Nat.eqb_eq in X2. subst x. exact (T2 i X1).
    - apply T1. simpl in Hi. cbn [existsb] in E. rewrite !orb_false_iff, !Nat.eqb_neq in E. simpl. lia. }
  clear T1 T2. set (start := start_of given calls) in *. set (stop := stop_at norm own given start n) in *.
  assert (MV : List.Forall (fun c => moved given (c_before c) (c_node c) (spot given (c_after c) (c_node c)) (c_after c)) calls).
  { eapply Forall_impl; [|exact CIN]. intros c (nd & _ & _ & E & _). exact (func_moves _ _ _ _ _ _ _ _ _ _ _ E). }
  unfold numbers_used. fold stop. destruct given as [s|] eqn:G.
  - split. { intros i. now rewrite (given_threaded (Some s) s calls _ _ eq_refl TH MV). }
    intros FWD.
    assert (ORD : List.Forall (fun c => (w_given (c_before c) <= w_given (c_after c))%nat) calls).
    { eapply Forall_impl; [|exact CIN]. intros c (nd & _ & _ & E & _). exact (func_forward norm own _ pa n s Hn FWD _ _ _ _ _ E). }
    destruct (threaded_spans _ _ w_given _ _ _ TH ORD) as (P1 & P2 & P3 & P4).
    intros i Hi. destruct (T i Hi) as (c & C1 & C2 & C3 & C4). cbn [spot] in C3. destruct C4 as [C4 _]. cbn [spot] in C4.
    destruct (in_split _ _ C1) as (a & b & EC). destruct (P2 a b c EC) as [Q1 Q2]. rewrite C3 in Q1. rewrite C4 in Q2. split; [split; assumption|].
    intros k Hk NE. destruct (T k Hk) as (d & D1 & D2 & D3 & D4). cbn [spot] in D3. destruct D4 as [D4 _]. cbn [spot] in D4.
    rewrite EC in D1. apply in_app_or in D1. destruct D1 as [D1|[D1|D1]].
    + right. destruct (in_split _ _ D1) as (a1 & a2 & EA). subst a. rewrite <- app_assoc in EC. simpl in EC.
      assert (X := P3 _ _ _ _ _ EC). rewrite C3, D4 in X. exact X.
    + subst d. congruence.
    + left. destruct (in_split _ _ D1) as (a1 & a2 & EA). subst b.
      assert (X := P3 _ _ _ _ _ EC). rewrite D3, C4 in X. exact X.
  - destruct (own_threaded None calls _ _ eq_refl TH MV ND) as (O1 & _ & O2). split; auto.
    intros i Hi. destruct (T i Hi) as (c & C1 & C2 & C3 & C4). destruct (O2 c C1) as [Q1 Q2]. rewrite C2 in *. cbn [spot] in C3. destruct C4 as [C4 _]. cbn [spot] in C4.
    split; [rewrite <- Q1; symmetry; exact C3|rewrite Q2; exact C4].
Qed.
Theorem C104_source : forall pinv t times zpdf stream norm own given model zinv ge lt fuel n w,
  construct_snia_source pinv t times zpdf stream = Ok model ->
  pinv zpdf = Ok zinv -> pinv (x1_pdf 11) = Ok ge -> pinv (x1_pdf 9) = Ok lt -> (14 < fuel)%nat -> (1 <= n)%Z ->
  exists h' m, sample_snia norm own given fuel model n w = Ok (h', m) /\ gs_n (sm_gs m) = Z.to_nat n /\
  exists (samples : list supernova) (start number : nat -> nat), length samples = Z.to_nat n /\
    (forall j s, nth_error samples j = Some s -> consistent norm own given start number zinv lt ge (list_min t times) (list_max t times) j s) /\
    (* the numbers for x1 are used in another order, each once *)
    (forall j, (j < Z.to_nat n)%nat -> (number j < Z.to_nat n)%nat) /\
    (forall j k, (j < Z.to_nat n)%nat -> (k < Z.to_nat n)%nat -> number j = number k -> j = k) /\
    numbers_used norm own given start (Z.to_nat n) w (sm_w m) /\
    (let C node name (get : supernova -> R) := rcolumn (sm_gs m) (Z.to_nat n) node name (map get samples) in
     C "host" "ra" s_hra /\ C "host" "dec" s_hdec /\ C "host" "hostmass" s_mass /\ C "host" "redshift" s_z /\
     C "source" "ra" s_ra /\ C "source" "dec" s_dec /\ C "source" "redshift" s_z /\ C "source" "t0" s_t0 /\
     C "source" "x1" s_x1 /\ C "source" "c" s_c /\ C "x0_func" "x1" s_x1 /\ C "x0_func" "c" s_c /\ C "x0_func" "m_abs" s_mabs /\
     column (sm_gs m) (Z.to_nat n) "source" "x0" (map s_x0 samples)).
Proof.
  intros pinv t times zpdf stream norm own given model zinv ge lt fuel n w HB E1 E2 E3 HF HN.
  rewrite (snia_built _ _ _ _ _ _ _ _ E1 E2 E3) in HB. injection HB as <-.
  set (tmin := list_min t times). set (tmax := list_max t times).
  set (pa := mkParts zinv (mkX1 ge lt (fresh stream))).
  destruct (snia_samples norm own given pa tmin tmax fuel n w HF HN) as (m & M1 & M3).
  exists (the_named tmin tmax), m. split; [exact M1|]. split; [exact M3|].
  destruct (C105_calls_in_sequence _ _ _ _ _ _ _ _ _ _ _ (WFH tmin tmax) VG M1) as (calls & T1 & T2 & T3 & _ & T5).
  assert (CALL : forall k nd, nth_error (the_named tmin tmax) k = Some nd -> nd_fn nd = true -> In k (map c_node calls)).
  { intros k nd En FN. apply T3. split. { apply (reach tmin tmax k nd En). } exists nd. split; auto. split; auto. exact (function_nodes tmin tmax k nd En FN). }
  destruct (all_columns norm own given pa n tmin tmax fuel w m HN M1 calls T5 CALL) as (hra & hdec & mass & z & ra & dec & t0 & x1 & c & ma & x0 & Q). cbv zeta in Q.
  destruct Q as (Q1 & Q2 & Q3 & Q4 & Q5 & Q6 & Q7 & Q8 & Q9 & Q10 & Q11 & Q12 & Q13 & Q14 & Q15 & K1 & K2 & Q).
  set (N := Z.to_nat n) in *.
  set (sn := fun j => mkSn (nth j hra 0) (nth j hdec 0) (nth j mass 0) (nth j z 0) (nth j ra 0) (nth j dec 0) (nth j t0 0) (nth j x1 0) (nth j c 0) (nth j ma 0) (nth j x0 None)).
  exists (map sn (seq 0 N)), (start_of given calls), (x1_number N mass). split; [now rewrite map_length, seq_length|].
  assert (GET : forall X (d : X) (l : list X), length l = N -> l = map (fun j => nth j l d) (seq 0 N)).
  { intros X d l HL. rewrite <- HL. clear. induction l as [|x l IH]; auto. cbn [length seq map nth]. f_equal. rewrite <- seq_shift, map_map. exact IH. }
  assert (COL : forall node name (get : supernova -> R) l, rcolumn (sm_gs m) N node name l -> (forall j, get (sn j) = nth j l 0) ->
     rcolumn (sm_gs m) N node name (map get (map sn (seq 0 N)))).
  { intros node name get l HC HG. rewrite map_map. replace (map (fun j => get (sn j)) (seq 0 N)) with l; auto.
    rewrite (GET _ 0 l) at 1; [|destruct HC as [HC _]; now rewrite map_length in HC]. apply map_ext. intros j. now rewrite HG. }
  assert (LM : length mass = N) by (destruct Q3 as [LM _]; now rewrite map_length in LM).
  destruct (x1_number_distinct N ltac:(unfold N; lia) mass LM) as [XN1 XN2].
  split; [|split; [exact XN1|split; [exact XN2|split; [apply (used_spec norm own given pa tmin tmax); auto; unfold N; lia|]]]].
  - intros j s Hs. assert (Hj : (j < N)%nat) by (assert (L := proj1 (nth_error_Some (map sn (seq 0 N)) j) ltac:(congruence)); now rewrite map_length, seq_length in L).
    rewrite nth_error_map in Hs. replace (nth_error (seq 0 N) j) with (Some j) in Hs.
    2:{ symmetry. rewrite (nth_error_nth' _ 0%nat) by now rewrite seq_length. now rewrite seq_nth. }
    injection Hs as <-.
    destruct (Q j Hj) as (P1 & P2 & P3 & P4 & P5 & P6 & P7 & P8 & P9 & P10 & P11).
    rewrite !(nth_error_nth _ _ 0 (nth_repeat_some _ _ N j ltac:(lia))) in *.
    unfold consistent, sn. cbn [s_hra s_hdec s_mass s_z s_ra s_dec s_t0 s_x1 s_c s_mabs s_x0]. cbv zeta.
    split; [rewrite P1; lra|]. split; [rewrite P2; lra|]. split; [rewrite P3; lra|]. split; [exact P4|].
    split; [rewrite P5; lra|]. split; [rewrite P6; lra|]. split; [exact P7|].
    split. { rewrite P8. cbn [pa_x1 pa x1_lt x1_ge]. destruct (Rlt_dec (nth j mass 0) 10) as [LT|GE].
      - apply Rltb_true in LT. now rewrite LT.
      - assert (Rltb (nth j mass 0) 10 = false) as -> by (apply Rltb_false; lra). reflexivity. }
    split; [rewrite P9; lra|]. split; [rewrite P10; lra|].
    rewrite P11. destruct (distmod 73 (3 / 10) (nth j z 0)) as [mu|]; auto. now apply C83_tripp.
  - cbv zeta. split; [exact (COL _ _ s_hra _ Q1 (fun _ => eq_refl))|]. split; [exact (COL _ _ s_hdec _ Q2 (fun _ => eq_refl))|].
    split; [exact (COL _ _ s_mass _ Q3 (fun _ => eq_refl))|]. split; [exact (COL _ _ s_z _ Q4 (fun _ => eq_refl))|].
    split; [exact (COL _ _ s_ra _ Q5 (fun _ => eq_refl))|]. split; [exact (COL _ _ s_dec _ Q6 (fun _ => eq_refl))|].
    split; [exact (COL _ _ s_z _ Q7 (fun _ => eq_refl))|]. split; [exact (COL _ _ s_t0 _ Q8 (fun _ => eq_refl))|].
    split; [exact (COL _ _ s_x1 _ Q9 (fun _ => eq_refl))|]. split; [exact (COL _ _ s_c _ Q10 (fun _ => eq_refl))|].
    split; [exact (COL _ _ s_x1 _ Q13 (fun _ => eq_refl))|]. split; [exact (COL _ _ s_c _ Q14 (fun _ => eq_refl))|].
    split; [exact (COL _ _ s_mabs _ Q15 (fun _ => eq_refl))|].
    rewrite map_map. replace (map (fun j => s_x0 (sn j)) (seq 0 N)) with x0; auto. unfold sn. cbn [s_x0]. apply GET. apply Q11.
Qed.
(** With uniform numbers in [0, 1): where and when the supernovae are. *)
Lemma fold_min : forall l t, (fold_left Rmin l t <= t /\ forall x, In x l -> fold_left Rmin l t <= x).
Proof.
  induction l as [|a l IH]; intros t; simpl; [split; [lra|intros x []]|]. destruct (IH (Rmin t a)) as [I1 I2].
  pose proof (Rmin_l t a). pose proof (Rmin_r t a). split; [lra|]. intros x [->|Hx]; [lra|auto].
Qed.
Lemma fold_max : forall l t, (t <= fold_left Rmax l t /\ forall x, In x l -> x <= fold_left Rmax l t).
Proof.
  induction l as [|a l IH]; intros t; simpl; [split; [lra|intros x []]|]. destruct (IH (Rmax t a)) as [I1 I2].
  pose proof (Rmax_l t a). pose proof (Rmax_r t a). split; [lra|]. intros x [->|Hx]; [lra|auto].
Qed.
Lemma fold_min_in : forall l t, In (fold_left Rmin l t) (t :: l).
Proof.
  induction l as [|a l IH]; intros t; [now left|]. simpl fold_left. destruct (IH (Rmin t a)) as [E|E]; [|now right; right].
  rewrite <- E. unfold Rmin. destruct (Rle_dec t a); simpl; auto.
Qed.
Lemma fold_max_in : forall l t, In (fold_left Rmax l t) (t :: l).
Proof.
  induction l as [|a l IH]; intros t; [now left|]. simpl fold_left. destruct (IH (Rmax t a)) as [E|E]; [|now right; right].
  rewrite <- E. unfold Rmax. destruct (Rle_dec t a); simpl; auto.
Qed.
Theorem C104_ranges : forall norm own given start number zinv lt ge t times j s,
  (forall i j, 0 <= uniform_number own given start i j < 1) ->
  consistent norm own given start number zinv lt ge (list_min t times) (list_max t times) j s ->
  Rabs (s_hra s) <= 1 / 2 /\ Rabs (s_hdec s) <= 1 / 2 /\ 7 <= s_mass s < 12 /\
  (exists a b, In a (t :: times) /\ In b (t :: times) /\ (forall x, In x (t :: times) -> a <= x <= b) /\ a <= s_t0 s <= b) /\
  (0 < s_z s -> exists x0, s_x0 s = Some x0 /\ 0 < x0).
Proof.
  intros norm own given start number zinv lt ge t times j s U. unfold consistent. cbv zeta.
  intros (E1 & E2 & E3 & _ & _ & _ & E4 & _ & _ & _ & X).
  assert (D1 := U 0%nat j). assert (D2 := U 1%nat j). assert (D3 := U 2%nat j). assert (D4 := U 10%nat j).
  set (u4 := uniform_number own given start 10 j) in *.
  split; [apply Rabs_le; lra|]. split; [apply Rabs_le; lra|]. split; [lra|]. split.
  - exists (list_min t times), (list_max t times). split; [apply fold_min_in|]. split; [apply fold_max_in|].
    assert (B : forall x, In x (t :: times) -> list_min t times <= x <= list_max t times).
    { intros x Hx. unfold list_min, list_max. destruct (fold_min times t) as [A1 A2]. destruct (fold_max times t) as [B1 B2]. destruct Hx as [<-|Hx]; auto. }
    split; auto. assert (LE := B t (or_introl eq_refl)). set (a := list_min t times) in *. set (b := list_max t times) in *.
    assert (0 <= (b - a) * u4) by (apply Rmult_le_pos; lra). assert ((b - a) * u4 <= (b - a) * 1) by (apply Rmult_le_compat_l; lra). lra.
  - intros HZ. destruct (C83_distmod 73 (3 / 10) (s_z s)) as (_ & DM & _); try lra. rewrite (DM HZ) in X.
    destruct (s_x0 s) as [x0|]; [|contradiction]. exists x0. split; auto. apply X.
Qed.
(** ** A case: a model is built, and the theorem applies to it, with any normal numbers and any number of samples. *)
Theorem C104_case : forall norm given n w, (1 <= n)%Z ->
  exists model h' m, construct_snia_source (fun f => Ok f) 60000 [60100; 59900] (fun _ => 1) (fun _ => 0) = Ok model /\
  sample_snia norm (fun _ _ => 1 / 2) given 15 model n w = Ok (h', m) /\ gs_n (sm_gs m) = Z.to_nat n.
Proof.
  intros norm given n w HN.
  destruct (proj2 (C104_built (fun f => Ok f) 60000 [60100; 59900] (fun _ => 1) (fun _ => 0))) as [model HM]; [eauto 10|].
  destruct (C104_source (fun f => Ok f) 60000 [60100; 59900] (fun _ => 1) (fun _ => 0) norm (fun _ _ => 1 / 2) given model _ _ _ 15 n w HM eq_refl eq_refl eq_refl ltac:(lia) HN) as (h' & m & H1 & H2 & _).
  exists model, h', m. auto.
Qed.
Print Assumptions C104_source.
