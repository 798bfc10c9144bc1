(** Properties C46 (additive models), C47 (random models), further theorems of C45 and C68. *)
From Coq Require Import Reals String List Bool Arith ZArith Lia Lra Permutation.
From Verif Require Import Base BaseFacts RealBase PassbandModel PassbandProofs PassbandProps PassbandGroupProps ObsTableModel SedModel SedProps SedPipeline SedBands.
Import ListNotations.
Open Scope R_scope.

(** ** C45, continued *)
Lemma single_group : forall p, built_band p -> exists g, pg_make [p] None = Ok g /\ built g /\ members g = [p].
Proof.
  intros p B. assert (EC : collect [p] = [(pb_full p, p)]) by reflexivity.
  destruct (update_ok (collect [p])) as (g & HU). { rewrite EC. repeat constructor; simpl; now apply built_good. }
  destruct (update_inv _ _ HU) as (EB & _). exists g. split; [exact HU|]. split.
  - apply (built_make [p] None); [repeat constructor; auto|]. exact HU.
  - unfold members. now rewrite EB, EC.
Qed.
(** Given a single Passband and no filters, every observation is taken in that passband. *)
Theorem C45_single_passband : forall m p ts sts, built_band p -> exists g, built g /\ members g = [p] /\
  evaluate_bandfluxes m (POne p) ts None sts = evaluate_bandfluxes m (PGroup g) ts (Some (map (fun _ => pb_filter p) ts)) sts /\
  pg_getitem g (pb_filter p) = Ok p.
Proof.
  intros m p ts sts B. destruct (single_group p B) as (g & EG & BG & EM). exists g. split; auto. split; auto. split.
  - unfold evaluate_bandfluxes. rewrite EG. reflexivity.
  - apply (C32_getitem g _ BG). split; [rewrite EM; left; auto|]. destruct (string_dec (pb_full p) (pb_filter p)) as [E|N]; [left; auto|right].
    rewrite EM. simpl. split; [intros [H|[]]; auto|]. split; auto. intros p' [->|[]] _. auto.
Qed.
(** An SED model refuses a filter the group does not have (or has twice). *)
Theorem C45_unknown_filter : forall s g ts fs st f, built g -> length fs = length ts -> In f fs -> (forall p, ~ denotes g f p) ->
  exists e, evaluate_bandfluxes (PSed s) (PGroup g) ts (Some fs) [st] = Err e.
Proof.
  intros s g ts fs st f B HL HI HN. rewrite (evaluate_unfold _ _ _ _ _ (Some g)) by auto. cbn [band_eval]. unfold sed_bandfluxes.
  assert (HI' : In f (unique_names fs)) by now apply unique_names_In.
  generalize (repeat 0 (length ts)) as out. induction (unique_names fs) as [|a l IH]; intros out; [destruct HI'|]. cbn [fold_res].
  destruct HI' as [->|HI'].
  - rewrite (proj2 (C32_getitem g f B) HN). cbn [bind]. eauto.
  - destruct (pg_getitem g a); [cbn [bind]|cbn [bind]; eauto]. match goal with |- context[sed_single ?a ?b ?c ?d ?e] => destruct (sed_single a b c d e) end; cbn [bind]; eauto.
    match goal with |- context[fluxes_to_bandflux ?a ?b] => destruct (fluxes_to_bandflux a b) end; cbn [bind]; eauto.
Qed.

(** ** C46: the weighted sum *)
Definition val (m : matrix) (i j : nat) : R := nth j (nth i m []) 0.
Definition shaped (t n : nat) (m : matrix) : Prop := length m = t /\ Forall (fun r => length r = n) m.
(** The loop of the additive model. *)
Definition sum_seds (ev : phys -> result matrix) :=
  fix go (l : list phys) (w : list R) (acc : matrix) {struct l} : result matrix :=
    match l, w with
    | o :: l', x :: w' => bind (ev o) (fun f => go l' w' (madd acc (mscale x f)))
    | _, _ => Ok acc
    end.
Lemma nth_map_def : forall A B (f : A -> B) l i da db, f da = db -> nth i (map f l) db = f (nth i l da).
Proof. intros. subst. apply map_nth. Qed.
Lemma shaped_madd : forall t n a b w, shaped t n a -> shaped t n b -> shaped t n (madd a (mscale w b)).
Proof.
  intros t n a b w [H1 H2] [H3 H4]. unfold madd, mscale. split.
  - rewrite map_length, combine_length, map_length. lia.
  - apply Forall_forall. intros r HI. apply in_map_iff in HI. destruct HI as ([x y] & <- & HI). cbn [fst snd].
    rewrite map_length, combine_length. pose proof (in_combine_l _ _ _ _ HI) as Hx. pose proof (in_combine_r _ _ _ _ HI) as Hy.
    apply in_map_iff in Hy. destruct Hy as (y0 & <- & Hy). rewrite Forall_forall in H2, H4. rewrite map_length. rewrite (H2 _ Hx), (H4 _ Hy). lia.
Qed.
Lemma row_add : forall a b w j, length a = length b -> nth j (map (fun q => fst q + snd q) (combine a (map (fun x => w * x) b))) 0 = nth j a 0 + w * nth j b 0.
Proof.
  induction a as [|x a IH]; intros [|y b] w j H; try discriminate; simpl.
  - destruct j; simpl; lra.
  - destruct j; simpl; [lra|]. apply IH. simpl in H. lia.
Qed.
Lemma val_madd : forall t n a b w i j, shaped t n a -> shaped t n b -> val (madd a (mscale w b)) i j = val a i j + w * val b i j.
Proof.
  intros t n a b w i j [H1 H2] [H3 H4]. unfold val, madd, mscale. rewrite <- H1 in H3. clear H1 t. revert b i H3 H4.
  induction H2 as [|r a Hr H2 IH]; intros [|r' b] i H3 H4; try discriminate.
  - destruct i; simpl; destruct j; lra.
  - inversion H4 as [|? ? Hr' H5]; subst. destruct i as [|i]; cbn [map combine nth fst snd].
    + apply row_add. congruence.
    + apply IH; auto.
Qed.
Lemma val_zeros : forall t n i j, val (zeros t n) i j = 0.
Proof.
  intros t n i j. unfold val, zeros. assert (R0 : forall k, nth j (repeat 0 k) 0 = 0).
  { clear. induction j; intros [|k]; simpl; auto. }
  revert t. induction i as [|i IH]; intros [|t]; simpl; auto; destruct j; auto.
Qed.
Lemma sum_seds_spec : forall ev t n objs w acc m, length w = length objs -> shaped t n acc ->
  (forall o f, In o objs -> ev o = Ok f -> shaped t n f) ->
  sum_seds ev objs w acc = Ok m ->
  exists parts, Forall2 (fun o f => ev o = Ok f) objs parts /\ shaped t n m /\
    forall i j, val m i j = val acc i j + Rsum (map (fun wf => fst wf * val (snd wf) i j) (combine w parts)).
Proof.
  induction objs as [|o objs IH]; intros w acc m HW HS HP H.
  - simpl in H. inversion H; subst. exists []. split; [constructor|]. split; auto. intros i j. destruct w; simpl; lra.
  - destruct w as [|x w]; [discriminate|]. simpl in H. destruct (ev o) as [f|] eqn:E; [|discriminate]. cbn [bind] in H.
    assert (SF : shaped t n f) by (eapply HP; [left; auto|auto]).
    destruct (IH w (madd acc (mscale x f)) m) as (parts & A & B & C); auto.
    + now apply shaped_madd.
    + intros o' f' HI. apply HP. right; auto.
    + exists (f :: parts). split; [constructor; auto|]. split; auto. intros i j. rewrite C. rewrite (val_madd t n) by auto. simpl. lra.
Qed.
Lemma eval_add : forall node se objs w obs ts ws st kw,
  eval_single (PAdd node se objs w obs) ts ws st kw =
  if existsb is_band objs then Err TypeError
  else bind (sum_seds (fun o => eval_single o ts ws st kw) objs w (zeros (length ts) (length ws))) (fun fl =>
       bind (local_params node st) (fun ps => apply_effects obs ts ws ps fl)).
Proof. reflexivity. Qed.
Lemma shaped_zeros : forall t n, shaped t n (zeros t n).
Proof.
  intros. unfold zeros. split; [apply repeat_length|]. apply Forall_forall. intros r H. apply repeat_spec in H. subst. apply repeat_length.
Qed.
Lemma sum_seds_total : forall ev objs w acc parts, length w = length objs -> Forall2 (fun o f => ev o = Ok f) objs parts ->
  exists m, sum_seds ev objs w acc = Ok m.
Proof.
  intros ev objs w acc parts HW H. revert w acc HW. induction H as [|o f objs parts E H IH]; intros w acc HW; [simpl; eauto|].
  destruct w as [|x w]; [discriminate|]. cbn [sum_seds]. rewrite E. cbn [bind]. apply IH. simpl in HW. lia.
Qed.
Lemma one_of : forall o ts ws st kw f, evaluate_sed o ts ws [st] kw = Ok (SOne f) <-> eval_single o ts ws st kw = Ok f.
Proof. intros. unfold evaluate_sed. destruct (eval_single o ts ws st kw); simpl; split; intros H; inversion H; auto. Qed.
Lemma parts_In : forall A B (ev : A -> result B) (P : B -> Prop) objs parts, Forall2 (fun o f => ev o = Ok f) objs parts -> Forall P parts ->
  forall o f, In o objs -> ev o = Ok f -> P f.
Proof.
  intros A B ev P objs parts H. induction H as [|o1 f1 objs parts E H IH]; intros HS o f HI EO; [destruct HI|].
  inversion HS; subst. destruct HI as [HI|HI]; [|eauto]. subst. rewrite EO in E. inversion E; subst; auto.
Qed.
(** The components, evaluated alone, give flux matrices [parts] (T x N, as every model returns); then the additive
    model evaluates, and its flux before the observer-frame effects is the weighted sum of theirs, entry by entry. *)
Theorem C46_weighted_sum : forall node se objs w ts ws (st : gst) kw (ps : params) parts,
  length w = length objs -> existsb is_band objs = false -> dget node st = Some ps ->
  Forall2 (fun o f => evaluate_sed o ts ws [st] kw = Ok (SOne f)) objs parts ->
  Forall (shaped (length ts) (length ws)) parts ->
  exists m, evaluate_sed (PAdd node se objs w []) ts ws [st] kw = Ok (SOne m) /\ shaped (length ts) (length ws) m /\
    (forall i j, val m i j = Rsum (map (fun wf => fst wf * val (snd wf) i j) (combine w parts))) /\
    forall obs, evaluate_sed (PAdd node se objs w obs) ts ws [st] kw = bind (apply_effects obs ts ws ps m) (fun x => Ok (SOne x)).
Proof.
  intros node se objs w ts ws st kw ps parts HW HB HP HF HS.
  assert (HF' : Forall2 (fun o f => eval_single o ts ws st kw = Ok f) objs parts).
  { clear - HF. induction HF; constructor; auto. now apply one_of. }
  destruct (sum_seds_total (fun o => eval_single o ts ws st kw) objs w (zeros (length ts) (length ws)) parts HW HF') as (m & E).
  destruct (sum_seds_spec _ (length ts) (length ws) _ _ _ _ HW (shaped_zeros _ _)
             (parts_In _ _ _ _ _ _ HF' HS) E) as (parts' & P1 & P2 & P3).
  assert (parts' = parts).
  { clear - P1 HF'. revert parts' P1. induction HF' as [|o f objs parts E H IH]; intros parts' P1; inversion P1; subst; auto. f_equal; [congruence|auto]. }
  subst parts'. exists m.
  assert (X : forall obs, evaluate_sed (PAdd node se objs w obs) ts ws [st] kw = bind (apply_effects obs ts ws ps m) (fun x => Ok (SOne x))).
  { intros obs. unfold evaluate_sed. rewrite eval_add, HB, E. cbn [bind]. unfold local_params. rewrite HP. reflexivity. }
  split; [rewrite X; reflexivity|]. split; auto. split; auto. intros i j. rewrite P3, val_zeros. lra.
Qed.
(** Components that fail make the sum fail; a BandfluxModel component makes it a TypeError. *)
Theorem C46_bandflux_component : forall node se objs w obs ts ws sts kw, sts <> [] -> (exists b, In (PBand b) objs) ->
  evaluate_sed (PAdd node se objs w obs) ts ws sts kw = Err TypeError.
Proof.
  intros node se objs w obs ts ws sts kw HN (b & HI).
  assert (X : forall st, eval_single (PAdd node se objs w obs) ts ws st kw = Err TypeError).
  { intros st. rewrite eval_add. replace (existsb is_band objs) with true; auto. symmetry. apply existsb_exists. exists (PBand b). auto. }
  unfold evaluate_sed. destruct sts as [|s1 [|s2 sts]]; [congruence| |]; cbn [fold_res]; rewrite X; reflexivity.
Qed.
(** Weights: one per object, else ValueError; without weights the plain sum. *)
Theorem C46_weights : forall node se objs,
  (forall w, length w <> length objs -> make_additive node se objs (Some w) = Err ValueError) /\
  (forall w, length w = length objs -> make_additive node se objs (Some w) = Ok (PAdd node se objs w [])) /\
  make_additive node se objs None = Ok (PAdd node se objs (repeat 1 (length objs)) []).
Proof.
  intros. unfold make_additive. split; [|split].
  - intros w H. apply Nat.eqb_neq in H. now rewrite H.
  - intros w H. apply Nat.eqb_eq in H. now rewrite H.
  - now rewrite map_const_map.
Qed.
(** Rest-frame effects go to every component; observer-frame effects are applied once, to the sum. *)
Theorem C46_rest_effect : forall node se objs w obs e, ef_rest e = true ->
  add_effect (PAdd node se objs w obs) e = PAdd node se (map (fun o => add_effect o e) objs) w obs.
Proof. intros. simpl. now rewrite H. Qed.
Theorem C46_observer_effect : forall node se objs w obs e ts ws (st : gst) kw (ps : params), ef_rest e = false -> dget node st = Some ps ->
  evaluate_sed (add_effect (PAdd node se objs w obs) e) ts ws [st] kw =
  match evaluate_sed (PAdd node se objs w obs) ts ws [st] kw with
  | Ok (SOne m) => bind (ef_apply e ts ws ps m) (fun x => Ok (SOne x))
  | Ok (SMany l) => Ok (SMany l)
  | Err x => Err x
  end.
Proof.
  intros node se objs w obs e ts ws st kw ps HR HP. simpl add_effect. rewrite HR. unfold evaluate_sed. rewrite !eval_add.
  destruct (existsb is_band objs); auto. destruct (sum_seds _ objs w _) as [m|]; auto. cbn [bind]. unfold local_params. rewrite HP. cbn [bind].
  unfold apply_effects. assert (FA : forall es m, fold_res (fun m e => ef_apply e ts ws ps m) m (es ++ [e]) = bind (fold_res (fun m e => ef_apply e ts ws ps m) m es) (fun m => ef_apply e ts ws ps m)).
  { induction es as [|e' es IH]; intros m'; simpl; [now destruct (ef_apply e ts ws ps m')|]. destruct (ef_apply e' ts ws ps m'); auto. }
  rewrite FA. destruct (fold_res _ m obs); auto.
Qed.
(** ** Band fluxes of an additive model *)
Lemma sum_bands_spec : forall ev ts fs objs w acc b n, length w = length objs -> length acc = n ->
  (forall o x, In o objs -> ev o ts fs = Ok x -> length x = n) ->
  sum_bands ev ts fs objs w acc = Ok b ->
  exists parts, Forall2 (fun o x => ev o ts fs = Ok x) objs parts /\ length b = n /\
    forall i, nth i b 0 = nth i acc 0 + Rsum (map (fun wx => fst wx * nth i (snd wx) 0) (combine w parts)).
Proof.
  induction objs as [|o objs IH]; intros w acc b n HW HS HP H.
  - simpl in H. inversion H; subst. exists []. split; [constructor|]. split; auto. intros i. destruct w; simpl; lra.
  - destruct w as [|x w]; [discriminate|]. simpl in H. destruct (ev o ts fs) as [f|] eqn:E; [|discriminate]. cbn [bind] in H.
    assert (SF : length f = n) by (eapply HP; [left; auto|auto]).
    destruct (IH w (vadd acc (vscale x f)) b n) as (parts & A & B & C); auto.
    + unfold vadd, vscale. rewrite map_length, combine_length, map_length. lia.
    + intros o' f' HI. apply HP. right; auto.
    + exists (f :: parts). split; [constructor; auto|]. split; auto. intros i. rewrite C. unfold vadd, vscale. rewrite row_add by lia. simpl. lra.
Qed.
Theorem C46_bandfluxes : forall node se objs w ts fs (st : gst) (ps : params) pb parts b,
  length w = length objs -> length fs = length ts -> dget node st = Some ps ->
  Forall2 (fun o x => evaluate_bandfluxes o pb ts (Some fs) [st] = Ok (BOne x)) objs parts -> Forall (fun x => length x = length ts) parts -> objs <> [] ->
  evaluate_bandfluxes (PAdd node se objs w []) pb ts (Some fs) [st] = Ok (BOne b) ->
  length b = length ts /\ forall i, nth i b 0 = Rsum (map (fun wx => fst wx * nth i (snd wx) 0) (combine w parts)).
Proof.
  intros node se objs w ts fs st ps pb parts b HW HL HP HF HS HN H.
  destruct (evaluate_group _ _ _ _ _ _ H) as [og EG]. rewrite (evaluate_unfold _ _ _ _ _ og EG HL) in H.
  assert (HF' : Forall2 (fun o x => band_eval o og ts fs st = Ok x) objs parts).
  { clear - HF EG HL. induction HF as [|o x objs parts E HF IH]; constructor; auto. rewrite (evaluate_unfold _ _ _ _ _ og EG HL) in E.
    destruct (band_eval o og ts fs st); simpl in E; inversion E; auto. }
  cbn [band_eval] in H. unfold local_params in H. rewrite HP in H. cbn [bind] in H.
  change (bind (bind (sum_bands (fun o ts fs => band_eval o og ts fs st) ts fs objs w (repeat 0 (length ts))) (fun b => apply_bands [] ts fs ps b)) (fun b => Ok (BOne b)) = Ok (BOne b)) in H.
  destruct (sum_bands _ ts fs objs w _) as [b'|] eqn:E; [|discriminate]. simpl in H. inversion H; subst b'. clear H.
  destruct (sum_bands_spec _ ts fs objs w (repeat 0 (length ts)) b (length ts) HW (repeat_length _ _)
             (parts_In _ _ _ _ _ _ HF' HS) E) as (parts' & P1 & P2 & P3).
  assert (parts' = parts).
  { clear - P1 HF'. revert parts' P1. induction HF' as [|o f objs parts E H IH]; intros parts' P1; inversion P1; subst; auto. f_equal; [congruence|auto]. }
  subst parts'. split; auto. intros i. rewrite P3. assert (R0 : forall k, nth i (repeat 0 k) 0 = 0).
  { clear. induction i; intros [|k]; simpl; auto. }
  rewrite R0. lra.
Qed.
(** Band fluxes of the sum = band fluxes computed from the summed SED. *)
Theorem C46_band_of_sum : forall (p : passband) (w : list R) (rows : list (list R)) (total : list R),
  length w = length rows -> Forall (fun r => length r = length (pb_table p)) rows -> length total = length (pb_table p) ->
  (forall j, nth j total 0 = Rsum (map (fun wr => fst wr * nth j (snd wr) 0) (combine w rows))) ->
  row_bandflux (pb_table p) (pb_delta p) total = Rsum (map (fun wr => fst wr * row_bandflux (pb_table p) (pb_delta p) (snd wr)) (combine w rows)).
Proof.
  intros p w rows total HW HR HT H. revert w total HW HT H. induction HR as [|r rows Hr HR IH]; intros w total HW HT H.
  - destruct w; [|discriminate]. simpl in *. assert (Z : total = rows_comb 0 0 total total).
    { unfold rows_comb. clear - H. assert (X : forall x, In x total -> x = 0).
      { intros x HI. apply In_nth with (d := 0) in HI. destruct HI as (n & _ & <-). apply H. }
      clear H. induction total as [|a l IHl]; simpl; auto. rewrite (X a) by (left; auto). f_equal; [ring|]. apply IHl. intros. apply X. right; auto. }
    rewrite Z, C30_linear by auto. ring.
  - destruct w as [|x w]; [discriminate|]. cbn [combine map Rsum fold_right fst snd].
    set (rest := map (fun j => Rsum (map (fun wr => fst wr * nth j (snd wr) 0) (combine w rows))) (seq 0 (length (pb_table p)))).
    assert (RN : forall j, (j < length (pb_table p))%nat -> nth j rest 0 = Rsum (map (fun wr => fst wr * nth j (snd wr) 0) (combine w rows))).
    { intros j Hj. unfold rest. erewrite nth_indep; [rewrite (map_nth (fun j => Rsum (map (fun wr => fst wr * nth j (snd wr) 0) (combine w rows))) _ 0%nat), seq_nth by auto; reflexivity|].
      rewrite map_length, seq_length. auto. }
    assert (LR : length rest = length (pb_table p)) by (unfold rest; now rewrite map_length, seq_length).
    assert (T : total = rows_comb x 1 r rest).
    { apply nth_ext with (d := 0) (d' := 0).
      - unfold rows_comb. rewrite map_length, combine_length. lia.
      - intros j Hj. rewrite H. cbn [combine map Rsum fold_right fst snd]. unfold rows_comb. rewrite HT in Hj.
        assert (NR : forall (a b : list R) j, length a = length b -> (j < length a)%nat -> nth j (map (fun q => x * fst q + 1 * snd q) (combine a b)) 0 = x * nth j a 0 + 1 * nth j b 0).
        { clear. induction a as [|u a IH]; intros [|v b] j HL Hj; simpl in *; try lia. destruct j; auto. apply IH; lia. }
        rewrite NR by lia. rewrite RN by lia. unfold Rsum. lra. }
    rewrite T, C30_linear by auto. rewrite (IH w rest).
    + unfold Rsum. ring.
    + simpl in HW. lia.
    + auto.
    + intros j. destruct (lt_dec j (length (pb_table p))) as [L|L]; [auto|]. rewrite nth_overflow by lia. symmetry.
      assert (Z : forall r', In r' rows -> nth j r' 0 = 0). { intros r' HI. rewrite Forall_forall in HR. apply nth_overflow. rewrite (HR _ HI). lia. }
      clear - Z. revert w. induction rows as [|r' rows IH]; intros [|y w]; simpl; auto. rewrite Z by (left; auto). unfold Rsum in IH. rewrite IH; [lra|]. intros. apply Z. right; auto.
Qed.
(** ** [set_apply_redshift] on a multi-object model: announced to toggle the setting; it changes nothing when all components are
    SED models and raises when one of them is a BandfluxModel. *)
Theorem C46_set_apply_redshift_refuted : exists m b, set_apply_redshift m b = Ok m /\
  exists s s' node se w, m = PAdd node se [PSed s] w [] /\ set_apply_redshift (PSed s) b = Ok (PSed s') /\ sd_redshift s <> sd_redshift s'.
Proof.
  set (s := mkSed "m" [] true (fun _ => None) (fun _ => None) None (fun _ _ _ _ => Ok []) [] []).
  exists (PAdd "a" [] [PSed s] [1] []), false. split; [reflexivity|]. exists s, (sd_set_redshift s false), "a"%string, [], [1]. repeat split; auto. discriminate.
Qed.
Theorem C46_set_apply_redshift_bandflux_refuted : forall node se objs w obs x b, In (PBand b) objs ->
  set_apply_redshift (PAdd node se objs w obs) x = Err NotImplementedError.
Proof.
  intros. simpl. replace (existsb is_band objs) with true; auto. symmetry. apply existsb_exists. exists (PBand b). auto.
Qed.
(** A model with an observer-frame extinction: its SED can be evaluated, its band fluxes cannot. *)
Theorem C68_extinction_additive_refuted : forall node se objs w k v ts ws fs (st : gst) (ps : params) kw pb m e, dget node st = Some ps ->
  num_param "ebv" ps = Some e ->
  evaluate_sed (PAdd node se objs w []) ts ws [st] kw = Ok (SOne m) ->
  (exists m', evaluate_sed (add_effect (PAdd node se objs w []) (extinction false k v)) ts ws [st] kw = Ok (SOne m')) /\
  forall b, evaluate_bandfluxes (add_effect (PAdd node se objs w []) (extinction false k v)) pb ts (Some fs) [st] <> Ok b.
Proof.
  intros node se objs w k v ts ws fs st ps kw pb m e HP HE HM. split.
  - rewrite (C46_observer_effect _ _ _ _ _ _ _ _ _ _ ps) by auto. rewrite HM. simpl. rewrite HE. simpl. eauto.
  - intros b H. unfold evaluate_bandfluxes in H. destruct (match pb with POne p => _ | PGroup g => _ | PNoGroup => _ end) as [[og ofs]|]; [|discriminate].
    cbn [bind snd fst] in H. destruct ofs as [l|]; [|discriminate]. destruct (negb _); [discriminate|].
    assert (X : forall b', band_eval (add_effect (PAdd node se objs w []) (extinction false k v)) og ts l st <> Ok b').
    { intros b'. simpl. match goal with |- bind ?X _ <> _ => destruct X; [|discriminate] end. cbn [bind]. unfold local_params. rewrite HP. discriminate. }
    destruct (band_eval _ og ts l st) as [b'|]; [now apply (X b')|discriminate].
Qed.

(** ** C47: the selected component *)
Lemma object_map_get : forall names objs i name, NoDup names -> nth_error names i = Some name -> (i < length objs)%nat ->
  dget name (object_map names objs) = Some i.
Proof.
  intros names objs i name ND HN HL. unfold object_map.
  assert (G : forall (l : list (string * nat)) d k v, (NoDup (map fst l) -> nth_error l k = Some v -> dget (fst v) (fold_left (fun d ni => dset (fst ni) (snd ni) d) l d) = Some (snd v))
                /\ (~ In (fst v) (map fst l) -> dget (fst v) (fold_left (fun d ni => dset (fst ni) (snd ni) d) l d) = dget (fst v) d)).
  { induction l as [|[a n] l IH]; intros d k v; simpl; [split; [destruct k; discriminate|auto]|]. split.
    - intros ND' HK. inversion ND' as [|? ? N1 N2]; subst. destruct k as [|k]; simpl in HK.
      + inversion HK; subst v. destruct (IH (dset a n d) 0%nat (a, n)) as [_ X]. cbn [fst snd] in *. rewrite X by auto. apply dget_dset_same.
      + destruct (IH (dset a n d) k v) as [X _]. auto.
    - intros HI. destruct (IH (dset a n d) k v) as [_ X]. rewrite X by tauto. apply dget_dset_other. intros E. apply HI. left; auto. }
  assert (HC : nth_error (combine names (seq 0 (length objs))) i = Some (name, i)).
  { assert (Q : forall (names : list string) (s n i : nat) (name : string), nth_error names i = Some name -> (i < n)%nat -> nth_error (combine names (seq s n)) i = Some (name, (s + i)%nat)).
    { clear. induction names as [|a names IH]; intros s n i name HN HL; [destruct i; discriminate|]. destruct n as [|n]; [lia|]. destruct i as [|i]; simpl in *.
      - inversion HN. now rewrite Nat.add_0_r.
      - rewrite (IH (S s) n i name) by (auto; lia). do 2 f_equal. lia. }
    apply (Q names 0%nat); auto. }
  destruct (G (combine names (seq 0 (length objs))) [] i (name, i)) as [X _]. apply X; auto.
  clear - ND. revert ND. generalize 0%nat as s. generalize (length objs) as n. induction names as [|a names IH]; intros n s ND; [constructor|].
  destruct n as [|n]; [constructor|]. simpl. inversion ND as [|? ? N1 N2]; subst. constructor; [|auto].
  intros H. apply N1. apply in_map_iff in H. destruct H as ([b c] & E & H). simpl in E. subst. now apply in_combine_l in H.
Qed.
Definition pick_obj {A} (ev : phys -> result A) :=
  fix pick (l : list phys) (k : nat) {struct l} : result A :=
    match l, k with [], _ => Err KeyError | o :: _, O => ev o | _ :: l', S k' => pick l' k' end.
Lemma pick_nth : forall A (ev : phys -> result A) l k o, nth_error l k = Some o -> pick_obj ev l k = ev o.
Proof. induction l as [|a l IH]; intros [|k] o H; try discriminate; simpl in *; [inversion H; auto|auto]. Qed.
(** With distinct names the model evaluates exactly the component the sampled name stands for (then the observer-frame
    effects), for SEDs and for band fluxes. *)
Theorem C47_selected : forall node se objs names obs ts ws fs (st : gst) (ps : params) kw pb i name o,
  NoDup names -> nth_error names i = Some name -> nth_error objs i = Some o -> dget node st = Some ps ->
  dget "selected_object" ps = Some (PStr name) -> length fs = length ts ->
  (existsb is_band objs = false ->
   evaluate_sed (PRand node se objs names obs) ts ws [st] kw =
   match evaluate_sed o ts ws [st] kw with
   | Ok (SOne m) => bind (apply_effects obs ts ws ps m) (fun x => Ok (SOne x))
   | Ok (SMany l) => Ok (SMany l)
   | Err e => Err e
   end) /\
  evaluate_bandfluxes (PRand node se objs names obs) pb ts (Some fs) [st] =
   match evaluate_bandfluxes o pb ts (Some fs) [st] with
   | Ok (BOne b) => bind (apply_bands obs ts fs ps b) (fun x => Ok (BOne x))
   | Ok (BMany l) => Ok (BMany l)
   | Err e => Err e
   end.
Proof.
  intros node se objs names obs ts ws fs st ps kw pb i name o ND HN HO HP HS HL.
  assert (IL : (i < length objs)%nat) by (apply nth_error_Some; congruence).
  pose proof (object_map_get names objs i name ND HN IL) as HM.
  assert (GP : get_param node st "selected_object" = PStr name) by (unfold get_param; now rewrite HP, HS). split.
  - intros HB. unfold evaluate_sed.
    change (eval_single (PRand node se objs names obs) ts ws st kw) with
      (if existsb is_band objs then Err TypeError
       else match get_param node st "selected_object" with
            | PStr name => match dget name (object_map names objs) with
                           | None => Err KeyError
                           | Some k => bind (pick_obj (fun o => eval_single o ts ws st kw) objs k) (fun fl => bind (local_params node st) (fun ps => apply_effects obs ts ws ps fl))
                           end
            | _ => Err KeyError
            end).
    rewrite HB, GP, HM, (pick_nth _ _ _ _ o HO). destruct (eval_single o ts ws st kw); auto. cbn [bind]. unfold local_params. rewrite HP. reflexivity.
  - assert (X : forall og, band_eval (PRand node se objs names obs) og ts fs st = bind (band_eval o og ts fs st) (apply_bands obs ts fs ps)).
    { intros og. change (band_eval (PRand node se objs names obs) og ts fs st) with
      (match get_param node st "selected_object" with
       | PStr name => match dget name (object_map names objs) with
                      | None => Err KeyError
                      | Some k => bind (pick_obj (fun o => band_eval o og ts fs st) objs k) (fun fl => bind (local_params node st) (fun ps => apply_bands obs ts fs ps fl))
                      end
       | _ => Err KeyError
       end).
      rewrite GP, HM, (pick_nth _ _ _ _ o HO). destruct (band_eval o og ts fs st); auto. cbn [bind]. unfold local_params. rewrite HP. reflexivity. }
    destruct (group_arg pb) as [og|e] eqn:EG.
    + rewrite !(evaluate_unfold _ _ _ _ _ og EG HL), X. destruct (band_eval o og ts fs st); auto.
    + unfold evaluate_bandfluxes, group_arg in *. destruct pb as [p|g0|]; try discriminate. destruct (pg_make [p] None); [discriminate|reflexivity].
Qed.
(** The other components do not matter. *)
Theorem C47_others_irrelevant : forall node se objs objs' names obs ts ws (st : gst) (ps : params) kw i name o,
  NoDup names -> nth_error names i = Some name -> nth_error objs i = Some o -> nth_error objs' i = Some o -> dget node st = Some ps ->
  dget "selected_object" ps = Some (PStr name) -> existsb is_band objs = false -> existsb is_band objs' = false ->
  evaluate_sed (PRand node se objs names obs) ts ws [st] kw = evaluate_sed (PRand node se objs' names obs) ts ws [st] kw.
Proof.
  intros node se objs objs' names obs ts ws st ps kw i name o ND HN H1 H2 HP HS B1 B2.
  destruct (C47_selected node se objs names obs ts ws (map (fun _ => ""%string) ts) st ps kw PNoGroup i name o ND HN H1 HP HS (map_length _ _)) as [X _].
  destruct (C47_selected node se objs' names obs ts ws (map (fun _ => ""%string) ts) st ps kw PNoGroup i name o ND HN H2 HP HS (map_length _ _)) as [Y _].
  rewrite X, Y; auto.
Qed.
(** A selector outside the names: KeyError. *)
Theorem C47_unknown : forall node se objs names obs ts ws (st : gst) (ps : params) kw name, existsb is_band objs = false ->
  dget node st = Some ps -> dget "selected_object" ps = Some (PStr name) -> ~ In name names ->
  evaluate_sed (PRand node se objs names obs) ts ws [st] kw = Err KeyError.
Proof.
  intros node se objs names obs ts ws st ps kw name HB HP HS HN. unfold evaluate_sed. cbn [eval_single]. rewrite HB.
  unfold get_param. rewrite HP, HS. replace (dget name (object_map names objs)) with (@None nat); auto. symmetry. unfold object_map.
  assert (G : forall (l : list (string * nat)) d, ~ In name (map fst l) -> dget name (fold_left (fun d ni => dset (fst ni) (snd ni) d) l d) = dget name d).
  { induction l as [|[a n] l IH]; intros d HI; simpl in *; auto. rewrite IH by tauto. apply dget_dset_other. intros E. apply HI. left; auto. }
  rewrite G; auto. intros H. apply in_map_iff in H. destruct H as ([b c] & E & H). simpl in E. subst. apply in_combine_l in H. contradiction.
Qed.
(** Repeated names (two objects with the same name): the first of them is never evaluated. *)
Theorem C47_duplicate_names_refuted : exists o1 o2 node st x1 x2,
  evaluate_sed o1 [0] [1000] [st] [] = Ok (SOne x1) /\ evaluate_sed o2 [0] [1000] [st] [] = Ok (SOne x2) /\ x1 <> x2 /\
  get_param node st "selected_object" = PStr "a" /\
  evaluate_sed (PRand node [] [o1; o2] ["a"; "a"]%string []) [0] [1000] [st] [] = Ok (SOne x2).
Proof.
  set (mk := fun c : R => PSed (mkSed "m" [] false (fun _ => None) (fun _ => None) None (fun ts ws _ _ => Ok (map (fun _ => map (fun _ => c) ws) ts)) [] [])).
  exists (mk 1), (mk 2), "r"%string, [("m"%string, []); ("r"%string, [("selected_object"%string, PStr "a")])], [[1]], [[2]].
  unfold mk, evaluate_sed. cbn. rewrite (proj2 (Rleb_true 1000 1000)) by lra. cbn. repeat split; auto. intros H. inversion H. lra.
Qed.
(** Asking a random model for its wavelength range always raises. *)
Theorem C47_minwave_refuted : forall node se objs names obs st, minwave (PRand node se objs names obs) st = Err TypeError.
Proof. reflexivity. Qed.

(** ** A worked case: two components, weights 1/2 and 3, seen through one band of two. *)
Definition flat_sed (node : string) (c : R) : phys :=
  PSed (mkSed node [] false (fun _ => None) (fun _ => None) None (fun ts ws _ _ => Ok (map (fun t => map (fun _ => c * t) ws) ts)) [] []).
Lemma flat_sed_one : forall node c (st : gst) ps, dget node st = Some ps -> one_by_one (flat_sed node c) st.
Proof.
  intros node c st ps H. unfold flat_sed. set (s := mkSed _ _ _ _ _ _ _ _ _).
  apply (C45_pointwise_models s st ps 0 0 (fun t _ => c * t) (fun _ _ _ x => x)); simpl; auto; try discriminate; try lra; try tauto.
  - right. auto.
  - intros ts ws kw _. reflexivity.
Qed.
Example C46_case : exists g b, built g /\
  let st := [("x"%string, []); ("y"%string, []); ("sum"%string, [])] in
  let m := PAdd "sum" [] [flat_sed "x" 2; flat_sed "y" 10] [1/2; 3] [] in
  one_by_one m st /\
  evaluate_bandfluxes m (PGroup g) [5; 7; 1] (Some ["g"; "r"; "g"]%string) [st] = Ok (BOne b) /\ b = [155; 217; 31].
Proof.
  destruct (two_rows_ok "LSST" "g" 100 200) as (p1 & E1 & S1 & F1 & W1); [lra|].
  destruct (two_rows_ok "LSST" "r" 300 400) as (p2 & E2 & S2 & F2 & W2); [lra|].
  assert (N1 : pb_full p1 = "LSST_g"%string) by (unfold pb_full; rewrite S1, F1; reflexivity).
  assert (N2 : pb_full p2 = "LSST_r"%string) by (unfold pb_full; rewrite S2, F2; reflexivity).
  destruct (pair_group p1 p2) as (g & B & EB & EM); try (eapply two_rows_built; eauto); [congruence|].
  assert (D1 : pg_getitem g "g" = Ok p1).
  { apply (C32_getitem g _ B). split; [rewrite EM; left; auto|]. right. rewrite EM. simpl. rewrite N1, N2. split; [intros [H|[H|[]]]; discriminate|].
    split; auto. intros p' [<-|[<-|[]]] H; auto. congruence. }
  assert (D2 : pg_getitem g "r" = Ok p2).
  { apply (C32_getitem g _ B). split; [rewrite EM; right; left; auto|]. right. rewrite EM. simpl. rewrite N1, N2. split; [intros [H|[H|[]]]; discriminate|].
    split; auto. intros p' [<-|[<-|[]]] H; auto. congruence. }
  exists g. eexists. split; auto. cbv zeta. split.
  - cbn [one_by_one]. split; auto. split; [|intros e ps []]. split; [eapply (flat_sed_one "x"); reflexivity|]. split; auto. eapply (flat_sed_one "y"); reflexivity.
  - assert (FL1 : forall c, row_bandflux (pb_table p1) (pb_delta p1) [c; c] = c).
    { intros c. pose proof (flat_pair _ _ _ _ p1 c E1 W1) as X. apply bandflux_rows in X. simpl in X. injection X as X. symmetry. exact X. }
    assert (FL2 : forall c, row_bandflux (pb_table p2) (pb_delta p2) [c; c] = c).
    { intros c. pose proof (flat_pair _ _ _ _ p2 c E2 W2) as X. apply bandflux_rows in X. simpl in X. injection X as X. symmetry. exact X. }
    rewrite (evaluate_unfold _ _ _ _ _ (Some g)) by reflexivity. cbn [band_eval flat_sed]. unfold sed_bandfluxes. 
    change (unique_names ["g"; "r"; "g"]%string) with ["g"; "r"]%string. cbn [fold_res]. rewrite D1, D2. cbn [bind].
    rewrite W1, W2. unfold sed_single. cbn [sd_node sd_redshift rest_frame local_params dget String.eqb Ascii.eqb Bool.eqb bind].
    unfold sed_extrapolated. cbn [list_min list_max fold_left bind sd_min sd_max].
    rewrite !(proj2 (Rleb_true _ _) (Rle_refl _)). cbn [andb sd_compute map mask_list String.eqb Ascii.eqb Bool.eqb bind apply_effects fold_res sd_rest sd_obs].
    unfold fluxes_to_bandflux. rewrite W1, W2. cbn [length Nat.eqb negb map bind]. rewrite !FL1, !FL2.
    cbn [map String.eqb Ascii.eqb Bool.eqb put vadd vscale combine repeat length fst snd bind apply_bands fold_res]. split; [reflexivity|].
    repeat f_equal; lra.
Qed.
