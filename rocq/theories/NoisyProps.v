(** C85: white noise as an effect, and the random generator in the flux pipeline. *)
From Coq Require Import Reals String List Bool Arith ZArith Lia Lra.
From Verif Require Import Base BaseFacts RealBase PassbandModel PassbandProofs PassbandProps SedModel ScipyModel NoisyModel.
Import ListNotations.
Open Scope R_scope.

(** ** Specification *)
(** Entry (i, j) of a matrix, and its place in row-major order. *)
Definition entry (m : matrix) (i j : nat) : option R := match nth_error m i with Some r => nth_error r j | None => None end.
Definition place (m : matrix) (i j : nat) : nat := (length (concat (firstn i m)) + j)%nat.
Definition size (m : matrix) : nat := length (concat m).
(** The generator the noise is taken from, and the generators afterwards, when [n] numbers are taken. *)
Definition source (os : nat -> nat -> R) (w : world) : gen := match w_rng w with Some g => g | None => fresh (os (w_made w)) end.
Definition after (w : world) (n : nat) : world :=
  match w_rng w with Some g => mkWorld (Some (mkGen (g_stream g) (g_pos g + n))) (w_made w) | None => mkWorld None (S (w_made w)) end.
Definition number (g : gen) (k : nat) : R := g_stream g (g_pos g + k)%nat.

Lemma rphys_ind2 : forall P : rphys -> Prop,
  (forall s r o, P (RSed s r o)) -> (forall b es, P (RBand b es)) ->
  (forall node objs w obs, Forall P objs -> P (RAdd node objs w obs)) -> (forall node objs names obs, Forall P objs -> P (RRand node objs names obs)) ->
  forall m, P m.
Proof.
  intros P H1 H2 H3 H4. fix IH 1. intros [s r o|b es|node objs w obs|node objs names obs]; [apply H1|apply H2|apply H3|apply H4];
  (induction objs as [|o' objs IHo]; constructor; [apply IH|apply IHo]).
Qed.
Lemma draw_spec : forall os n w, draw os n w = (Ok (map (number (source os w)) (seq 0 n)), after w n).
Proof. intros os n [[g|] k]; reflexivity. Qed.

(** ** One application of the effect *)
Lemma noisy_row_nth : forall s r zs j x z, nth_error r j = Some x -> nth_error zs j = Some z -> nth_error (noisy_row s r zs) j = Some (x + s * z).
Proof.
  intros s r. induction r as [|y r IH]; intros zs j x z H1 H2; [destruct j; discriminate|]. destruct zs as [|v zs]; [destruct j; discriminate|].
  destruct j as [|j]; simpl in *; [congruence|]. now apply IH.
Qed.
Lemma noisy_row_length : forall s r zs, (length r <= length zs)%nat -> length (noisy_row s r zs) = length r.
Proof. intros s r zs H. unfold noisy_row. rewrite map_length, combine_length. lia. Qed.
Lemma noisy_rows_nth : forall s m zs i j x, size m = length zs -> entry m i j = Some x ->
  exists z, nth_error zs (place m i j) = Some z /\ entry (noisy_rows s m zs) i j = Some (x + s * z).
Proof.
  intros s m. induction m as [|r m IH]; intros zs i j x HL HE; [unfold entry in HE; destruct i; discriminate|].
  unfold size in HL. simpl in HL. rewrite app_length in HL. destruct i as [|i].
  - unfold entry in HE. simpl in HE. assert (J : (j < length r)%nat) by (apply nth_error_Some; congruence). unfold place. simpl.
    destruct (nth_error zs j) as [z|] eqn:EZ; [|apply nth_error_None in EZ; lia]. exists z. split; auto. unfold entry. simpl.
    apply noisy_row_nth; auto. rewrite <- EZ. rewrite <- (firstn_skipn (length r) zs) at 2. rewrite nth_error_app1; auto. rewrite firstn_length. lia.
  - unfold entry in *. simpl in HE. destruct (IH (skipn (length r) zs) i j x) as (z & Z1 & Z2); auto. { rewrite skipn_length. unfold size. lia. }
    exists z. split; [|exact Z2]. unfold place in *. simpl. rewrite app_length. rewrite <- Z1. rewrite <- (firstn_skipn (length r) zs) at 1.
    rewrite nth_error_app2; rewrite firstn_length_le by lia; [|lia]. f_equal. lia.
Qed.
Lemma noisy_rows_shape : forall s m zs, size m = length zs -> map (@length R) (noisy_rows s m zs) = map (@length R) m.
Proof.
  intros s m. induction m as [|r m IH]; intros zs HL; auto. unfold size in HL. simpl in HL. rewrite app_length in HL. simpl. rewrite IH by (rewrite skipn_length; unfold size; lia).
  f_equal. apply noisy_row_length. rewrite firstn_length. lia.
Qed.
Lemma place_lt : forall m i j x, entry m i j = Some x -> (place m i j < size m)%nat.
Proof.
  intros m i j x H. unfold entry in H. destruct (nth_error m i) as [r|] eqn:E; [|discriminate]. assert (J : (j < length r)%nat) by (apply nth_error_Some; congruence).
  unfold place, size. apply nth_error_split in E. destruct E as (l1 & l2 & -> & <-). rewrite firstn_app, firstn_all, Nat.sub_diag. simpl. rewrite app_nil_r, concat_app, app_length. simpl. rewrite app_length. lia.
Qed.
Lemma place_injective : forall m i j i' j' x x', entry m i j = Some x -> entry m i' j' = Some x' -> place m i j = place m i' j' -> i = i' /\ j = j'.
Proof.
  intros m. assert (K : forall i j i' j' x, entry m i j = Some x -> (i < i')%nat -> (i' < length m)%nat -> (place m i j < place m i' j')%nat).
  { intros i j i' j' x H L L'. unfold entry in H. destruct (nth_error m i) as [r|] eqn:E; [|discriminate]. assert (J : (j < length r)%nat) by (apply nth_error_Some; congruence). unfold place.
    assert (F : firstn i' m = firstn i m ++ r :: skipn (S i) (firstn i' m)).
    { rewrite <- (firstn_skipn (S i) (firstn i' m)) at 1. rewrite firstn_firstn. replace (Nat.min (S i) i') with (S i) by lia.
      assert (G : firstn (S i) m = firstn i m ++ [r]). { clear -E. revert m E. induction i as [|i IH]; intros [|y m] E; try discriminate; simpl in *; [congruence|]. now rewrite (IH m E). }
      rewrite G, <- app_assoc. reflexivity. }
    rewrite F, concat_app, app_length. simpl. rewrite app_length. lia. }
  intros i j i' j' x x' H H' E.
  assert (L : forall i j x, entry m i j = Some x -> (i < length m)%nat). { intros a b y Hy. unfold entry in Hy. destruct (nth_error m a) eqn:En; [|discriminate]. apply nth_error_Some. congruence. }
  destruct (lt_eq_lt_dec i i') as [[A|A]|A].
  - pose proof (K i j i' j' x H A (L _ _ _ H')). lia.
  - subst. split; auto. unfold place in E. lia.
  - pose proof (K i' j' i j x' H' A (L _ _ _ H)). lia.
Qed.
(** Each entry receives sigma times its own number of the generator (in row-major order, each number used once); the shape is kept. *)
Theorem C85_apply : forall os ps m s w, num_param "white_noise_sigma" ps = Some s -> 0 <= s ->
  exists m', white_matrix os ps m w = (Ok m', after w (size m)) /\ map (@length R) m' = map (@length R) m /\
  forall i j x, entry m i j = Some x -> entry m' i j = Some (x + s * number (source os w) (place m i j)) /\ (place m i j < size m)%nat.
Proof.
  intros os ps m s w HS H0. unfold white_matrix. rewrite HS. replace (Rltb s 0) with false by (symmetry; apply Rltb_false; lra). unfold andthen. rewrite draw_spec. unfold ret.
  fold (size m). set (zs := map _ _). assert (HL : size m = length zs) by (unfold zs; now rewrite map_length, seq_length).
  eexists. split; [reflexivity|]. split; [now apply noisy_rows_shape|]. intros i j x HE. pose proof (place_lt _ _ _ _ HE) as PL. split; auto.
  destruct (noisy_rows_nth s m zs i j x HL HE) as (z & Z1 & Z2). rewrite Z2. do 3 f_equal. unfold zs in Z1. rewrite nth_error_map, (nth_error_nth' _ 0%nat), seq_nth in Z1 by (rewrite ?seq_length; auto). injection Z1 as <-. reflexivity.
Qed.
Theorem C85_own_number : forall m i j i' j' x x', entry m i j = Some x -> entry m i' j' = Some x' -> place m i j = place m i' j' -> i = i' /\ j = j'.
Proof. exact place_injective. Qed.
Theorem C85_apply_band : forall os ps b s w, num_param "white_noise_sigma" ps = Some s -> 0 <= s ->
  exists b', white_band os ps b w = (Ok b', after w (length b)) /\ length b' = length b /\
  forall k x, nth_error b k = Some x -> nth_error b' k = Some (x + s * number (source os w) k).
Proof.
  intros os ps b s w HS H0. unfold white_band. rewrite HS. replace (Rltb s 0) with false by (symmetry; apply Rltb_false; lra). unfold andthen. rewrite draw_spec. unfold ret.
  eexists. split; [reflexivity|]. split; [apply noisy_row_length; now rewrite map_length, seq_length|]. intros k x HE. assert (K : (k < length b)%nat) by (apply nth_error_Some; congruence).
  apply noisy_row_nth; auto. rewrite nth_error_map, (nth_error_nth' _ 0%nat), seq_nth by (rewrite ?seq_length; auto). reflexivity.
Qed.
(** A missing, None or negative sigma: ValueError and no number taken. *)
Theorem C85_errors : forall os ps m b w,
  (num_param "white_noise_sigma" ps = None -> white_matrix os ps m w = (Err ValueError, w) /\ white_band os ps b w = (Err ValueError, w)) /\
  (forall s, num_param "white_noise_sigma" ps = Some s -> s < 0 -> fst (white_matrix os ps m w) = Err ValueError /\ fst (white_band os ps b w) = Err ValueError /\
     w_rng (snd (white_matrix os ps m w)) = w_rng w /\ w_rng (snd (white_band os ps b w)) = w_rng w).
Proof.
  intros os ps m b w. unfold white_matrix, white_band. split; [intros ->; auto|]. intros s -> Hs. replace (Rltb s 0) with true by (symmetry; now apply Rltb_true).
  destruct w as [[g|] k]; auto.
Qed.
(** Sigma zero changes nothing. *)
Lemma matrix_ext : forall m m' : matrix, map (@length R) m' = map (@length R) m -> (forall i j x, entry m i j = Some x -> entry m' i j = Some x) -> m' = m.
Proof.
  induction m as [|r m IH]; intros [|r' m'] HL HE; try discriminate; auto. injection HL as L1 L2. f_equal.
  - clear -L1 HE. assert (E : forall j x, nth_error r j = Some x -> nth_error r' j = Some x) by (intros j x; apply (HE 0%nat j x)). clear HE. revert r' L1 E.
    induction r as [|y r IH]; intros [|y' r'] L E; try discriminate; auto. f_equal; [specialize (E 0%nat y eq_refl); simpl in E; congruence|]. apply IH; [simpl in L; congruence|]. intros j x. apply (E (S j) x).
  - apply IH; auto. intros i j x. apply (HE (S i) j x).
Qed.
Theorem C85_zero_sigma : forall os ps m w, num_param "white_noise_sigma" ps = Some 0 -> fst (white_matrix os ps m w) = Ok m.
Proof.
  intros os ps m w HS. destruct (C85_apply os ps m 0 w HS ltac:(lra)) as (m' & -> & SH & E). simpl. f_equal. apply matrix_ext; auto. intros i j x HE. destruct (E i j x HE) as [-> _]. f_equal. ring.
Qed.

(** ** The whole pipeline *)
(** Effects other than white noise: the results are those of the model without generators (SedModel), and no number is taken. *)
Definition plain_effect (e : reff) : option effect := match e with Plain e => Some e | White _ _ => None end.
Definition all_plain (es : list reff) (l : list effect) : Prop := es = map Plain l.
Inductive erases : rphys -> phys -> Prop :=
| ErSed : forall s rest obs, erases (RSed s (map Plain rest) (map Plain obs)) (PSed (mkSed (sd_node s) (sd_setters s) (sd_redshift s) (sd_min s) (sd_max s) (sd_extrap s) (sd_compute s) rest obs))
| ErBand : forall b es, erases (RBand b (map Plain es)) (PBand (mkBand (bm_node b) (bm_setters b) (bm_compute b) es))
| ErAdd : forall node setters objs objs' w obs, Forall2 erases objs objs' -> erases (RAdd node objs w (map Plain obs)) (PAdd node setters objs' w obs)
| ErRand : forall node setters objs objs' names obs, Forall2 erases objs objs' -> erases (RRand node objs names (map Plain obs)) (PRand node setters objs' names obs).
Lemma rapply_plain : forall os es ts ws ps m w, rapply os (map Plain es) ts ws ps m w = (apply_effects es ts ws ps m, w).
Proof. intros os es. induction es as [|e es IH]; intros ts ws ps m w; auto. unfold rapply, apply_effects in *. simpl. unfold andthen, lift. destruct (ef_apply e ts ws ps m); auto. Qed.
Lemma rbands_plain : forall os es ts fs ps b w, rbands os (map Plain es) ts fs ps b w = (apply_bands es ts fs ps b, w).
Proof. intros os es. induction es as [|e es IH]; intros ts fs ps b w; auto. unfold rbands, apply_bands in *. simpl. unfold andthen, lift. destruct (ef_band e ts fs ps b); auto. Qed.
Lemma rsed_plain : forall os s rest obs ts ws st kw w, rsed_single os s (map Plain rest) (map Plain obs) ts ws st kw w =
  (sed_single (mkSed (sd_node s) (sd_setters s) (sd_redshift s) (sd_min s) (sd_max s) (sd_extrap s) (sd_compute s) rest obs) ts ws st kw, w).
Proof.
  intros. unfold rsed_single, sed_single, andthen, lift. cbn [sd_node sd_rest sd_obs]. destruct (local_params (sd_node s) st) as [ps|e]; auto. cbn [bind].
  change (rest_frame (mkSed (sd_node s) (sd_setters s) (sd_redshift s) (sd_min s) (sd_max s) (sd_extrap s) (sd_compute s) rest obs) ps ts ws) with (rest_frame s ps ts ws).
  destruct (rest_frame s ps ts ws) as [[[rt rw] oz]|e]; auto. cbn [bind].
  change (sed_extrapolated (mkSed (sd_node s) (sd_setters s) (sd_redshift s) (sd_min s) (sd_max s) (sd_extrap s) (sd_compute s) rest obs) rt rw st kw) with (sed_extrapolated s rt rw st kw).
  destruct (sed_extrapolated s rt rw st kw) as [m|e]; auto. cbn [bind]. rewrite rapply_plain. destruct (apply_effects rest rt rw ps m) as [m'|e]; auto. cbn [bind]. apply rapply_plain.
Qed.
Lemma erases_band : forall m p, erases m p -> is_rband m = is_band p.
Proof. intros m p H. destruct H; reflexivity. Qed.
Lemma erases_bands : forall l l', Forall2 erases l l' -> existsb is_rband l = existsb is_band l'.
Proof. intros l l' F. induction F as [|m p l l' H F IH]; auto. simpl. now rewrite (erases_band m p H), IH. Qed.
Theorem C85_plain : forall os m p ts ws st kw w, erases m p -> reval os m ts ws st kw w = (eval_single p ts ws st kw, w).
Proof.
  intros os m. induction m as [s r o|b es|node objs wt obs IH|node objs names obs IH] using rphys_ind2; intros p ts ws st kw w E; inversion E; subst.
  - apply rsed_plain.
  - reflexivity.
  - rename H4 into F. simpl. rewrite (erases_bands _ _ F). destruct (existsb is_band objs'); auto. unfold andthen at 1.
    match goal with |- (match ?X with _ => _ end) = _ => assert (G : X = ((fix go (l : list phys) (w0 : list R) (acc : matrix) {struct l} : result matrix :=
         match l, w0 with
         | o :: l', x :: w' => bind (eval_single o ts ws st kw) (fun f => go l' w' (madd acc (mscale x f)))
         | _, _ => Ok acc
         end) objs' wt (zeros (length ts) (length ws)), w)) end.
    { clear E. generalize (zeros (length ts) (length ws)). revert wt. induction F as [|m p l l' H F IHF]; intros wt acc; [destruct wt; reflexivity|]. inversion IH as [|? ? I1 I2]; subst.
      destruct wt as [|x wt]; [reflexivity|]. unfold andthen at 1. rewrite (I1 p ts ws st kw w H). destruct (eval_single p ts ws st kw) as [fl|e]; auto. cbn [bind]. now rewrite (IHF I2 wt). }
    rewrite G. match goal with |- context[bind ?B _] => destruct B as [fl|e] end; auto. cbn [bind]. unfold andthen, lift. destruct (local_params node st) as [ps|e]; auto. cbn [bind]. apply rapply_plain.
  - rename H4 into F. simpl. rewrite (erases_bands _ _ F). destruct (existsb is_band objs'); auto. destruct (get_param node st "selected_object"); auto.
    assert (LL : length objs = length objs') by (clear -F; induction F; simpl; congruence).
    unfold robject_map, object_map. rewrite LL. destruct (dget s _) as [k|]; auto. unfold andthen at 1.
    match goal with |- (match ?X with _ => _ end) = _ => assert (G : X = ((fix pick (l : list phys) (k : nat) {struct l} : result matrix :=
                            match l, k with
                            | [], _ => Err KeyError
                            | o :: _, O => eval_single o ts ws st kw
                            | _ :: l', S k' => pick l' k'
                            end) objs' k, w)) end.
    { clear E LL. revert k. induction F as [|m p l l' H F IHF]; intros k; [destruct k; reflexivity|]. inversion IH as [|? ? I1 I2]; subst. destruct k as [|k]; [now apply I1|]. now apply IHF. }
    rewrite G. match goal with |- context[bind ?B _] => destruct B as [fl|e] end; auto. cbn [bind]. unfold andthen, lift. destruct (local_params node st) as [ps|e]; auto. cbn [bind]. apply rapply_plain.
Qed.
Theorem C85_plain_bands : forall os m p g ts fs st w, erases m p -> rband_eval os m g ts fs st w = (band_eval p g ts fs st, w).
Proof.
  intros os m. induction m as [s r o|b es|node objs wt obs IH|node objs names obs IH] using rphys_ind2; intros p g ts fs st w E; inversion E; subst.
  - simpl. unfold rsed_bandfluxes, sed_bandfluxes. generalize (repeat 0 (length ts)). generalize (unique_names fs). intros l. induction l as [|f0 l IHl]; intros out; auto.
    simpl. unfold andthen at 1. destruct g as [g|]; auto. unfold andthen at 1, lift at 1. destruct (pg_getitem g f0) as [pb|e]; auto. cbn [bind].
    unfold andthen at 1. rewrite rsed_plain. destruct (sed_single _ _ _ st []) as [m|e]; auto. cbn [bind]. unfold andthen at 1, lift at 1. destruct (fluxes_to_bandflux pb m) as [b|e]; auto. cbn [bind]. unfold ret at 1. apply IHl.
  - simpl. unfold rband_single, band_single, andthen, lift. cbn [bm_node bm_compute bm_effects]. destruct (local_params (bm_node b) st) as [ps|e]; auto. cbn [bind].
    destruct (bm_compute b ts fs st) as [x|e]; auto. cbn [bind]. apply rbands_plain.
  - rename H4 into F. simpl. unfold andthen at 1.
    match goal with |- (match ?X with _ => _ end) = _ => assert (G : X = ((fix go (l : list phys) (w0 : list R) (acc : list R) {struct l} : result (list R) :=
               match l, w0 with
               | o :: l', x :: w' => bind (band_eval o g ts fs st) (fun b => go l' w' (vadd acc (vscale x b)))
               | _ :: _, [] => Err IndexError
               | [], _ => Ok acc
               end) objs' wt (repeat 0 (length ts)), w)) end.
    { clear E. generalize (repeat 0 (length ts)). revert wt. induction F as [|m p l l' H F IHF]; intros wt acc; [destruct wt; reflexivity|]. inversion IH as [|? ? I1 I2]; subst.
      destruct wt as [|x wt]; [reflexivity|]. unfold andthen at 1. rewrite (I1 p g ts fs st w H). destruct (band_eval p g ts fs st) as [fl|e]; auto. cbn [bind]. now rewrite (IHF I2 wt). }
    rewrite G. match goal with |- context[bind ?B _] => destruct B as [fl|e] end; auto. cbn [bind]. unfold andthen, lift. destruct (local_params node st) as [ps|e]; auto. cbn [bind]. apply rbands_plain.
  - rename H4 into F. simpl. destruct (get_param node st "selected_object"); auto.
    assert (LL : length objs = length objs') by (clear -F; induction F; simpl; congruence).
    unfold robject_map, object_map. rewrite LL. destruct (dget s _) as [k|]; auto. unfold andthen at 1.
    match goal with |- (match ?X with _ => _ end) = _ => assert (G : X = ((fix pick (l : list phys) (k : nat) {struct l} : result (list R) :=
                       match l, k with
                       | [], _ => Err KeyError
                       | o :: _, O => band_eval o g ts fs st
                       | _ :: l', S k' => pick l' k'
                       end) objs' k, w)) end.
    { clear E LL. revert k. induction F as [|m p l l' H F IHF]; intros k; [destruct k; reflexivity|]. inversion IH as [|? ? I1 I2]; subst. destruct k as [|k]; [now apply I1|]. now apply IHF. }
    rewrite G. match goal with |- context[bind ?B _] => destruct B as [fl|e] end; auto. cbn [bind]. unfold andthen, lift. destruct (local_params node st) as [ps|e]; auto. cbn [bind]. apply rbands_plain.
Qed.

(** ** Reproducibility *)
(** Two computations that, given a generator, do the same: same result, same generator afterwards, which is the given one some numbers
    further on; no unseeded generator is made. *)
Definition steady {A} (a a' : act A) : Prop := forall w g, w_rng w = Some g ->
  a w = a' w /\ exists n, snd (a w) = mkWorld (Some (mkGen (g_stream g) (g_pos g + n))) (w_made w).
Lemma steady_pure : forall {A} (r : result A), steady (lift r) (lift r).
Proof. intros A r [[g0|] k] g H; [|discriminate]. injection H as ->. split; auto. exists 0%nat. simpl. rewrite Nat.add_0_r. now destruct g. Qed.
Lemma steady_ret : forall {A} (x : A), steady (ret x) (ret x).
Proof. intros A x. apply (steady_pure (Ok x)). Qed.
Lemma steady_fail : forall {A} e, steady (@fail A e) (@fail A e).
Proof. intros A e. apply (steady_pure (Err e)). Qed.
Lemma steady_then : forall {A B} (a a' : act A) (k k' : A -> act B), steady a a' -> (forall x, steady (k x) (k' x)) -> steady (andthen a k) (andthen a' k').
Proof.
  intros A B a a' k k' HA HK w g H. destruct (HA w g H) as [E [n N]]. unfold andthen. rewrite <- E. destruct (a w) as [[x|e] w'] eqn:EW; simpl in N; subst w'.
  - destruct (HK x (mkWorld (Some (mkGen (g_stream g) (g_pos g + n))) (w_made w)) _ eq_refl) as [E2 [n2 N2]]. split; [exact E2|]. exists (n + n2)%nat. rewrite N2. simpl. now rewrite Nat.add_assoc.
  - split; [reflexivity|]. exists n. reflexivity.
Qed.
Lemma steady_fold : forall {A B} (k k' : A -> B -> act A) l a, (forall a b, steady (k a b) (k' a b)) -> steady (fold_act k a l) (fold_act k' a l).
Proof. intros A B k k' l. induction l as [|b l IH]; intros a H; simpl; [apply steady_ret|]. apply steady_then; auto. Qed.
Lemma steady_draw : forall os os' n, steady (draw os n) (draw os' n).
Proof. intros os os' n [[g0|] k] g H; [|discriminate]. injection H as ->. split; auto. exists n. reflexivity. Qed.
Lemma steady_made : forall {A} (e : err), steady (fun w => (@Err A e, made w)) (fun w => (Err e, made w)).
Proof. intros A e [[g0|] k] g H; [|discriminate]. injection H as ->. split; auto. exists 0%nat. simpl. rewrite Nat.add_0_r. now destruct g. Qed.
Lemma steady_one : forall os os' e ts ws ps m, steady (apply_one os e ts ws ps m) (apply_one os' e ts ws ps m).
Proof.
  intros os os' [e|r s] ts ws ps m; simpl; [apply steady_pure|]. unfold white_matrix. destruct (num_param _ ps) as [x|]; [|apply steady_fail]. destruct (Rltb x 0); [apply steady_made|].
  apply steady_then; [apply steady_draw|intros; apply steady_ret].
Qed.
Lemma steady_band_one : forall os os' e ts fs ps b, steady (band_one os e ts fs ps b) (band_one os' e ts fs ps b).
Proof.
  intros os os' [e|r s] ts fs ps b; simpl; [apply steady_pure|]. unfold white_band. destruct (num_param _ ps) as [x|]; [|apply steady_fail]. destruct (Rltb x 0); [apply steady_made|].
  apply steady_then; [apply steady_draw|intros; apply steady_ret].
Qed.
Lemma steady_sed : forall os os' s rest obs ts ws st kw, steady (rsed_single os s rest obs ts ws st kw) (rsed_single os' s rest obs ts ws st kw).
Proof.
  intros. unfold rsed_single. apply steady_then; [apply steady_pure|intros ps]. apply steady_then; [apply steady_pure|intros [[rt rw] oz]].
  apply steady_then; [apply steady_pure|intros m]. apply steady_then; [apply steady_fold; intros; apply steady_one|intros m']. apply steady_fold. intros. apply steady_one.
Qed.
Theorem C85_reproducible : forall os os' m ts ws st kw, steady (reval os m ts ws st kw) (reval os' m ts ws st kw).
Proof.
  intros os os' m ts ws st kw. induction m as [s r o|b es|node objs wt obs IH|node objs names obs IH] using rphys_ind2; simpl.
  - apply steady_sed.
  - apply steady_fail.
  - destruct (existsb is_rband objs); [apply steady_fail|]. apply steady_then.
    + generalize (zeros (length ts) (length ws)). revert wt. induction IH as [|o l H IH IHl]; intros wt acc; [destruct wt; apply steady_ret|]. destruct wt as [|x wt]; [apply steady_ret|].
      apply steady_then; [exact H|]. intros fl. apply IHl.
    + intros fl. apply steady_then; [apply steady_pure|]. intros ps. apply steady_fold. intros. apply steady_one.
  - destruct (existsb is_rband objs); [apply steady_fail|]. destruct (get_param node st "selected_object"); try apply steady_fail. destruct (dget s _) as [k|]; [|apply steady_fail]. apply steady_then.
    + revert k. induction IH as [|o l H IH IHl]; intros k; [destruct k; apply steady_fail|]. destruct k as [|k]; [exact H|]. apply IHl.
    + intros fl. apply steady_then; [apply steady_pure|]. intros ps. apply steady_fold. intros. apply steady_one.
Qed.
Lemma steady_bands : forall os os' m g ts fs st, steady (rband_eval os m g ts fs st) (rband_eval os' m g ts fs st).
Proof.
  intros os os' m g ts fs st. induction m as [s r o|b es|node objs wt obs IH|node objs names obs IH] using rphys_ind2; simpl.
  - apply steady_fold. intros out f0. destruct g as [g|]; [|apply steady_fail]. apply steady_then; [apply steady_pure|intros p]. apply steady_then; [apply steady_sed|intros m]. apply steady_then; [apply steady_pure|intros b]. apply steady_ret.
  - unfold rband_single. apply steady_then; [apply steady_pure|intros ps]. apply steady_then; [apply steady_pure|intros x]. apply steady_fold. intros. apply steady_band_one.
  - apply steady_then.
    + generalize (repeat 0 (length ts)). revert wt. induction IH as [|o l H IH IHl]; intros wt acc; [destruct wt; apply steady_ret|]. destruct wt as [|x wt]; [apply steady_fail|].
      apply steady_then; [exact H|]. intros fl. apply IHl.
    + intros fl. apply steady_then; [apply steady_pure|]. intros ps. apply steady_fold. intros. apply steady_band_one.
  - destruct (get_param node st "selected_object"); try apply steady_fail. destruct (dget s _) as [k|]; [|apply steady_fail]. apply steady_then.
    + revert k. induction IH as [|o l H IH IHl]; intros k; [destruct k; apply steady_fail|]. destruct k as [|k]; [exact H|]. apply IHl.
    + intros fl. apply steady_then; [apply steady_pure|]. intros ps. apply steady_fold. intros. apply steady_band_one.
Qed.
Theorem C85_reproducible_bands : forall os os' m g ts fs sts, steady (revaluate_bandfluxes os m g ts fs sts) (revaluate_bandfluxes os' m g ts fs sts).
Proof.
  intros. unfold revaluate_bandfluxes. destruct (negb _); [apply steady_fail|]. apply steady_fold. intros acc st. apply steady_then; [apply steady_bands|]. intros. apply steady_ret.
Qed.

(** ** White noise of an SED model, seen through redshift and passbands *)
(** The clean model: the same without the noise. *)
Definition clean (s : sed) : sed := mkSed (sd_node s) (sd_setters s) (sd_redshift s) (sd_min s) (sd_max s) (sd_extrap s) (sd_compute s) [] [].
(** The factor by which rest-frame noise is seen larger in the observer's frame. *)
Definition seen_factor (rest : bool) (s : sed) (ps : params) (z : R) : Prop :=
  if (rest && sd_redshift s)%bool then (exists zz, dget "redshift" ps = Some (PNum zz) /\ z = 1 + zz) else z = 1.
Theorem C85_sed_noise : forall os s rest x ts ws st kw ps sg w m z, dget (sd_node s) st = Some ps -> num_param "white_noise_sigma" ps = Some sg -> 0 <= sg ->
  sed_single (clean s) ts ws st kw = Ok m -> seen_factor rest s ps z ->
  exists m', rsed_single os s (if rest then [White true x] else []) (if rest then [] else [White false x]) ts ws st kw w = (Ok m', after w (size m)) /\
  map (@length R) m' = map (@length R) m /\ forall i j y, entry m i j = Some y -> entry m' i j = Some (y + z * sg * number (source os w) (place m i j)).
Proof.
  intros os s rest x ts ws st kw ps sg w m z HP HS H0 HM HZ. unfold sed_single in HM. cbn [sd_node sd_rest sd_obs clean] in HM. unfold local_params in HM. rewrite HP in HM. cbn [bind] in HM.
  change (rest_frame (clean s) ps ts ws) with (rest_frame s ps ts ws) in HM. destruct (rest_frame s ps ts ws) as [[[rt rw] oz]|e] eqn:ERF; [|discriminate]. cbn [bind] in HM.
  change (sed_extrapolated (clean s) rt rw st kw) with (sed_extrapolated s rt rw st kw) in HM. destruct (sed_extrapolated s rt rw st kw) as [m0|e] eqn:EX; [|discriminate]. cbn [bind] in HM.
  unfold apply_effects in HM. cbn in HM. injection HM as HM.
  unfold rsed_single, andthen, lift, local_params. rewrite HP, ERF, EX. destruct rest.
  - unfold rapply. cbn [fold_act]. unfold andthen, apply_one. destruct (C85_apply os ps m0 sg w HS H0) as (m1 & E1 & SH & EN). rewrite E1. unfold ret.
    assert (OZ : match oz with Some zz => z = 1 + zz | None => forall y, z * y = y \/ True end).
    { destruct oz; auto. unfold rest_frame in ERF. unfold seen_factor in HZ. cbn [andb] in HZ. destruct (sd_redshift s); [|discriminate]. destruct HZ as (zz & HR & ->). rewrite HR in ERF.
      destruct (Reqb zz 0); [discriminate|]. destruct (dget "t0" ps) as [[| |]|]; try discriminate. unfold obs_to_rest in ERF. congruence. }
    destruct oz as [zz|].
    + subst z. subst m. assert (MAP : forall mm i j, entry (rest_to_obs_flux mm zz) i j = option_map (fun v => v * (1 + zz)) (entry mm i j)).
      { intros mm i j. unfold entry, rest_to_obs_flux. rewrite nth_error_map. destruct (nth_error mm i) as [r|]; auto. simpl. apply nth_error_map. }
      assert (LEN : forall mm, map (@length R) (rest_to_obs_flux mm zz) = map (@length R) mm). { intros mm. unfold rest_to_obs_flux. rewrite map_map. apply map_ext. intros r. apply map_length. }
      assert (SZ : forall mm, length (concat (rest_to_obs_flux mm zz)) = length (concat mm)). { intros mm. unfold rest_to_obs_flux. rewrite <- concat_map. apply map_length. }
      exists (rest_to_obs_flux m1 zz). split; [f_equal; f_equal; unfold size; now rewrite SZ|]. split; [now rewrite !LEN|].
      intros i j y HE. rewrite MAP in HE. destruct (entry m0 i j) as [v|] eqn:EV; [|discriminate]. injection HE as <-. rewrite MAP. destruct (EN i j v EV) as [-> _]. simpl. f_equal.
      assert (PL : place (rest_to_obs_flux m0 zz) i j = place m0 i j). { unfold place. f_equal. unfold rest_to_obs_flux. rewrite firstn_map. rewrite <- concat_map. apply map_length. }
      rewrite PL. ring.
    + subst m. exists m1. split; [reflexivity|]. split; [exact SH|]. intros i j y HE. destruct (EN i j y HE) as [-> _]. do 2 f_equal.
      assert (Z1 : z = 1). { unfold seen_factor in HZ. cbn [andb] in HZ. unfold rest_frame in ERF. destruct (sd_redshift s); auto. destruct HZ as (zz & HR & ->). rewrite HR in ERF. destruct (Reqb zz 0) eqn:EZ; [apply Reqb_true in EZ; lra|].
        destruct (dget "t0" ps) as [[| |]|]; discriminate. }
      rewrite Z1. ring.
  - unfold rapply. cbn [fold_act]. unfold ret at 1. unfold andthen, apply_one. destruct (C85_apply os ps (match oz with Some zz => rest_to_obs_flux m0 zz | None => m0 end) sg w HS H0) as (m1 & E1 & SH & EN). rewrite E1. unfold ret.
    subst m. exists m1. split; [reflexivity|]. split; [exact SH|]. intros i j y HE. destruct (EN i j y HE) as [-> _]. unfold seen_factor in HZ. cbn [andb] in HZ. rewrite HZ. do 2 f_equal. ring.
Qed.
(** In a passband: the noise of the band flux is the band flux of the noise, an average over the passband's wavelengths. *)
Theorem C85_band_noise : forall (phi : table) d s r zs, length r = length phi -> length zs = length phi ->
  row_bandflux phi d (noisy_row s r zs) = row_bandflux phi d r + s * row_bandflux phi d zs.
Proof.
  intros phi d s r zs H1 H2. replace (noisy_row s r zs) with (rows_comb 1 s r zs); [rewrite C30_linear by auto; ring|].
  unfold rows_comb, noisy_row. apply map_ext. intros [a b]. simpl. ring.
Qed.

(** ** Simulations *)
(** Without white noise a simulation is determined by the generator it is given. *)
Theorem C85_simulate : forall os os' m p g ts fs st errors k k' gen0, erases m p ->
  fst (simulate_object os m g ts fs st errors (mkWorld (Some gen0) k)) = fst (simulate_object os' m g ts fs st errors (mkWorld (Some gen0) k')).
Proof.
  intros os os' m p g ts fs st errors k k' gen0 E.
  assert (R : forall o k, revaluate_bandfluxes o m g ts fs [st] (mkWorld None k) =
    (if negb (length fs =? length ts)%nat then Err ValueError else match band_eval p (Some g) ts fs st with Ok b => Ok [b] | Err e => Err e end, mkWorld None k)).
  { intros o k0. unfold revaluate_bandfluxes. destruct (negb _); auto. simpl. unfold andthen. rewrite (C85_plain_bands o m p _ _ _ _ _ E). destruct (band_eval p (Some g) ts fs st); reflexivity. }
  unfold simulate_object. cbn [w_made w_rng]. rewrite !R. destruct (if negb _ then _ else _) as [l|e]; auto. unfold andthen, lift. destruct (errors (hd [] l)) as [er|e]; reflexivity.
Qed.
(** Finding: with white noise it is not: the effect's numbers come from unseeded generators, even if the simulation is given one. *)
Definition noisy_star : rphys := RBand (mkBand "m" [] (fun ts _ _ => Ok (map (fun _ => 10) ts)) []) [White false (PNum 1)].
Theorem C85_simulate_refuted : forall g gen0 k, exists os os',
  let run o := fst (simulate_object o noisy_star g [0] ["r"%string] [("m"%string, [("white_noise_sigma"%string, PNum 1)])] (fun l => Ok (map (fun _ => 1) l)) (mkWorld (Some gen0) k)) in
  exists perfect flux perfect' flux', run os = Ok (perfect, flux) /\ run os' = Ok (perfect', flux') /\ perfect = [10] /\ perfect' = [11] /\ flux <> flux'.
Proof.
  intros g gen0 k. exists (fun _ _ => 0), (fun _ _ => 1).
  assert (N : Rltb 1 0 = false) by (apply Rltb_false; lra).
  unfold simulate_object, revaluate_bandfluxes, noisy_star. simpl. unfold andthen, rband_single, andthen, lift. simpl. unfold rbands. simpl. unfold andthen, white_band, num_param. simpl. rewrite N.
  unfold andthen, draw, ret, noisy_row. simpl.
  replace (10 + 1 * 0) with 10 by ring. replace (10 + 1 * 1) with 11 by ring. do 4 eexists. split; [reflexivity|]. split; [reflexivity|]. split; [reflexivity|]. split; [reflexivity|].
  simpl. intros Q. injection Q as Q. lra.
Qed.
(** Finding: a model with two white-noise effects has one sigma, that of the first: the second effect's is dropped when the effect is added. *)
Theorem C85_two_effects_refuted : forall setters s1 s2, dmem "white_noise_sigma" setters = false ->
  dget "white_noise_sigma" (add_params (reff_params (White false s2)) (add_params (reff_params (White false s1)) setters)) = Some s1.
Proof.
  intros setters s1 s2 H. unfold add_params, reff_params. cbn [fold_left fst snd]. rewrite H.
  assert (M : dmem "white_noise_sigma" (dset "white_noise_sigma" s1 setters) = true). { unfold dmem. now rewrite dget_dset_same. }
  rewrite M. apply dget_dset_same.
Qed.
(** A case: noise of sigma 2 on a 2 x 2 matrix, with a generator returning 0, 1, 2, ... that has been used once. *)
Example C85_case : fst (white_matrix (fun _ _ => 0) [("white_noise_sigma"%string, PNum 2)] [[10; 20]; [30; 40]] (mkWorld (Some (mkGen INR 1)) 0)) = Ok [[10 + 2 * 1; 20 + 2 * 2]; [30 + 2 * 3; 40 + 2 * 4]].
Proof.
  unfold white_matrix, num_param. simpl. replace (Rltb 2 0) with false by (symmetry; apply Rltb_false; lra). unfold andthen, draw, ret. simpl.
  replace (1 + 1) with 2 by ring. replace (2 + 1) with 3 by ring. replace (3 + 1) with 4 by ring. reflexivity.
Qed.
