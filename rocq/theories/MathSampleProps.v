(** C114: sampling a math node: every sample gets the value of the expression at its own parameters (src/lightcurvelynx/math_nodes/basic_math_node.py). *)
From Coq Require Import String List Bool Arith ZArith Lia.
From Verif Require Import Base BaseFacts GraphStateModel GraphStateProofs GraphStateProofs2 GraphStateProofs3 GraphStateProofs4 GraphStateProps NodeGraphModel NodeGraphProps ExternalModel ExternalProps DustProps MathNodeModel MathNodeProps MathSampleModel.
Import ListNotations.
Open Scope string_scope.
Open Scope list_scope.
Open Scope nat_scope.

(** ** Specification *)
(** Functions of one and of two numbers, by their names in expressions. *)
Definition of_one : list string := ["abs"; "acos"; "acosh"; "asin"; "asinh"; "atan"; "cos"; "cosh"; "ceil"; "degrees"; "deg2rad"; "exp"; "fabs"; "floor"; "log"; "log10"; "log2";
  "radians"; "rad2deg"; "sin"; "sinh"; "sqrt"; "tan"; "tanh"; "trunc"].
Definition of_two : list string := ["atan2"; "pow"; "power"].
(** Where the function lives: under its own name in the module of the backend, but for a few exceptions. *)
Definition home (b : backend) (f : string) : string * string :=
  match b with
  | BMath => if String.eqb f "abs" then ("builtins", "abs") else if String.eqb f "deg2rad" then ("math", "radians") else if String.eqb f "rad2deg" then ("math", "degrees")
             else if String.eqb f "power" then ("math", "pow") else ("math", f)
  | BNumpy => if String.eqb f "pow" then ("np", "power") else ("np", f)
  | BJax => if String.eqb f "pow" then ("jnp", "power") else ("jnp", f)
  end.
Definition answer {A} (r : result A) : option A := match r with Ok x => Some x | Err _ => None end.

Section Spec.
Context {A : Type}.
Variables (lit : string -> A) (sbin : binop -> A -> A -> result A) (sun : unop -> A -> result A) (lib : string -> string -> list A -> result A) (const : string -> string -> A).
(** The value of an expression for single numbers (None: it raises). *)
Fixpoint meaning (b : backend) (env : string -> option A) (e : expr) : option A :=
  match e with
  | Const c => Some (lit c)
  | Name x => match env x with Some v => Some v | None => Some (const (module_name b) x) end
  | BinOp op l r => match meaning b env l, meaning b env r with Some x, Some y => answer (sbin op x y) | _, _ => None end
  | UnaryOp op e => match meaning b env e with Some x => answer (sun op x) | None => None end
  | Call (Name f) [e1] => match meaning b env e1 with Some x => answer (lib (fst (home b f)) (snd (home b f)) [x]) | None => None end
  | Call (Name f) [e1; e2] => match meaning b env e1, meaning b env e2 with Some x, Some y => answer (lib (fst (home b f)) (snd (home b f)) [x; y]) | _, _ => None end
  | _ => None
  end.
End Spec.
(** Expressions of literals, parameters, pi, e, the operators and the functions above (neither max nor min); the math backend has no functions but abs for several samples. *)
Inductive elementwise (params : list string) (b : backend) (n : nat) : expr -> Prop :=
| el_const : forall c, elementwise params b n (Const c)
| el_param : forall x, In x params -> elementwise params b n (Name x)
| el_pi : forall x, x = "pi" \/ x = "e" -> elementwise params b n (Name x)
| el_bin : forall op l r, arith_op op -> elementwise params b n l -> elementwise params b n r -> elementwise params b n (BinOp op l r)
| el_un : forall op e, sign_op op -> elementwise params b n e -> elementwise params b n (UnaryOp op e)
| el_one : forall f e, In f of_one -> ~ In f params -> (b = BMath -> n = 1 \/ f = "abs") -> elementwise params b n e -> elementwise params b n (Call (Name f) [e])
| el_two : forall f e1 e2, In f of_two -> ~ In f params -> (b = BMath -> n = 1) -> elementwise params b n e1 -> elementwise params b n e2 -> elementwise params b n (Call (Name f) [e1; e2]).
(** A parameter enters the expression. *)
Inductive enters (x : string) : expr -> Prop :=
| en_name : enters x (Name x)
| en_left : forall op l r, enters x l -> enters x (BinOp op l r)
| en_right : forall op l r, enters x r -> enters x (BinOp op l r)
| en_un : forall op e, enters x e -> enters x (UnaryOp op e)
| en_arg : forall f args e, In e args -> enters x e -> enters x (Call f args).

(** ** Proofs *)
Section Proofs.
Context {A : Type}.
Implicit Types (v w : value A) (xs ys : list A).
(** A value met while evaluating [n] samples: one number for all, or one per sample. *)
Definition rel (n : nat) v xs : Prop := length xs = n /\ ((exists x, v = Atom x /\ xs = repeat x n) \/ (n <> 1 /\ v = Arr (map Atom xs))).

Lemma oks_spec : forall X (l : list (result X)), match oks l with Ok ys => Forall2 (fun r y => r = Ok y) l ys | Err _ => exists i r, nth_error l i = Some r /\ forall y, r <> Ok y end.
Proof.
  intros X. induction l as [|r l IH]; cbn [oks]; [constructor|]. destruct r as [x|e]; cbn [bind].
  - destruct (oks l); cbn [bind]; [now constructor|]. destruct IH as (i & r & E & H). exists (S i), r. auto.
  - exists 0, (Err e). split; auto. discriminate.
Qed.
Lemma F2_nth : forall X Y (R : X -> Y -> Prop) l m, length l = length m -> (forall i x y, nth_error l i = Some x -> nth_error m i = Some y -> R x y) -> Forall2 R l m.
Proof. intros X Y R. induction l as [|x l IH]; intros [|y m] L H; try discriminate; constructor; [apply (H 0); auto|]. apply IH; [cbn in L; lia|]. intros i a b HA HB. apply (H (S i)); auto. Qed.
Lemma F2_get : forall X Y (R : X -> Y -> Prop) l m i x, Forall2 R l m -> nth_error l i = Some x -> exists y, nth_error m i = Some y /\ R x y.
Proof. intros X Y R l m i x F. revert i. induction F as [|a c l m H F IH]; intros [|i] E; try discriminate; cbn in *; [injection E as <-; eauto|auto]. Qed.
Lemma F2_len : forall X Y (R : X -> Y -> Prop) l m, Forall2 R l m -> length l = length m.
Proof. induction 1; cbn; auto. Qed.
Lemma map_lift : forall X (g : X -> result (value A)) (h : X -> result A) l, (forall x, g x = bind (h x) (fun y => Ok (Atom y))) ->
  match oks (map g l) with
  | Ok vs => exists ys, vs = map Atom ys /\ Forall2 (fun x y => h x = Ok y) l ys
  | Err _ => exists i x, nth_error l i = Some x /\ forall y, h x <> Ok y
  end.
Proof.
  intros X g h l E. induction l as [|x l IH]; cbn [map oks]; [exists []; auto|]. rewrite E. destruct (h x) as [y|e] eqn:EH; cbn [bind].
  - destruct (oks (map g l)); cbn [bind].
    + destruct IH as (ys & -> & F). exists (y :: ys). split; auto. 
    + destruct IH as (i & z & N & H). exists (S i), z. auto.
  - exists 0, x. split; auto. rewrite EH. discriminate.
Qed.
Lemma nth_repeat_in : forall (x : A) n i y, nth_error (repeat x n) i = Some y -> y = x.
Proof. intros. apply nth_error_In in H. now apply repeat_spec in H. Qed.
Lemma lift1_rel : forall n (g : A -> result A) v xs, 1 <= n -> rel n v xs ->
  match lift1 g v with
  | Ok w => exists ys, rel n w ys /\ Forall2 (fun x y => g x = Ok y) xs ys
  | Err _ => exists i x, nth_error xs i = Some x /\ forall y, g x <> Ok y
  end.
Proof.
  intros n g v xs HN [L [(x & -> & ->)|[NE ->]]]; cbn [lift1].
  - destruct (g x) as [y|e] eqn:E; cbn [bind].
    + exists (repeat y n). split; [split; [apply repeat_length|left; eauto]|]. clear - E. induction n; cbn; constructor; auto.
    + exists 0, x. destruct n; [lia|]. split; auto. rewrite E. discriminate.
  - rewrite map_map. pose proof (map_lift A (fun x => lift1 g (Atom x)) g xs (fun x => eq_refl)) as M.
    destruct (oks (map (fun x => lift1 g (Atom x)) xs)); cbn [bind]; auto. destruct M as (ys & -> & F). exists ys. split; auto. split; [|auto]. pose proof (F2_len _ _ _ _ _ F). lia.
Qed.
Lemma depth_flat : forall xs, depth (Arr (map Atom xs)) = 1.
Proof. intros xs. cbn [depth]. f_equal. induction xs; cbn; auto. Qed.
Lemma lift2_rel : forall n (g : A -> A -> result A) v w xs zs, 1 <= n -> rel n v xs -> rel n w zs ->
  match broadcast g v w with
  | Ok u => exists ys, rel n u ys /\ forall i x z, nth_error xs i = Some x -> nth_error zs i = Some z -> exists y, nth_error ys i = Some y /\ g x z = Ok y
  | Err _ => exists i x z, nth_error xs i = Some x /\ nth_error zs i = Some z /\ forall y, g x z <> Ok y
  end.
Proof.
  intros n g v w xs zs HN [L1 C1] [L2 C2]. unfold broadcast. destruct C1 as [(x & -> & ->)|[NE ->]], C2 as [(z & -> & ->)|[NE2 ->]].
  - cbn [depth plus lift2]. destruct (g x z) as [y|e] eqn:E; cbn [bind].
    + exists (repeat y n). split; [split; [apply repeat_length|left; eauto]|]. intros i a c HA HC. pose proof (nth_repeat_in _ _ _ _ HA). pose proof (nth_repeat_in _ _ _ _ HC). subst. exists y. split; auto.
      apply nth_error_repeat. rewrite <- (repeat_length x n). apply nth_error_Some. congruence.
    + exists 0, x, z. destruct n; [lia|]. repeat split; auto. rewrite E. discriminate.
  - rewrite depth_flat. replace (lift2 (S (depth (Atom x) + 1)) g (Atom x) (Arr (map Atom zs))) with (bind (oks (map (lift2 1 g (Atom x)) (map Atom zs))) (fun us => Ok (Arr us))) by reflexivity. rewrite map_map. pose proof (map_lift A (fun y => lift2 1 g (Atom x) (Atom y)) (g x) zs (fun y => eq_refl)) as M.
    destruct (oks (map (fun y => lift2 1 g (Atom x) (Atom y)) zs)); cbn [bind].
    + destruct M as (ys & -> & F). exists ys. split; [split; [pose proof (F2_len _ _ _ _ _ F); lia|auto]|]. intros i a c HA HC. pose proof (nth_repeat_in _ _ _ _ HA). subst a. destruct (F2_get _ _ _ _ _ _ _ F HC) as (y & EY & EG). eauto.
    + destruct M as (i & c & HC & H). exists i, x, c. repeat split; auto. apply nth_error_repeat. rewrite <- L2. apply nth_error_Some. congruence.
  - rewrite depth_flat. replace (lift2 (S (1 + depth (Atom z))) g (Arr (map Atom xs)) (Atom z)) with (bind (oks (map (fun u => lift2 1 g u (Atom z)) (map Atom xs))) (fun us => Ok (Arr us))) by reflexivity. rewrite map_map. pose proof (map_lift A (fun y => lift2 1 g (Atom y) (Atom z)) (fun y => g y z) xs (fun y => eq_refl)) as M.
    destruct (oks (map (fun y => lift2 1 g (Atom y) (Atom z)) xs)); cbn [bind].
    + destruct M as (ys & -> & F). exists ys. split; [split; [pose proof (F2_len _ _ _ _ _ F); lia|auto]|]. intros i a c HA HC. pose proof (nth_repeat_in _ _ _ _ HC). subst c. destruct (F2_get _ _ _ _ _ _ _ F HA) as (y & EY & EG). eauto.
    + destruct M as (i & c & HC & H). exists i, c, z. repeat split; auto. apply nth_error_repeat. rewrite <- L1. apply nth_error_Some. congruence.
  - rewrite !depth_flat. set (k := 2). assert (EL : lift2 (S k) g (Arr (map Atom xs)) (Arr (map Atom zs)) = bind (oks (map (fun p => lift2 k g (fst p) (snd p)) (combine (map Atom xs) (map Atom zs)))) (fun us => Ok (Arr us))).
    { change (lift2 (S k) g (Arr (map Atom xs)) (Arr (map Atom zs))) with
        (if depth (Arr (map Atom zs)) <? depth (Arr (map Atom xs)) then bind (oks (map (fun x => lift2 k g x (Arr (map Atom zs))) (map Atom xs))) (fun us => Ok (Arr us))
         else if depth (Arr (map Atom xs)) <? depth (Arr (map Atom zs)) then bind (oks (map (fun y => lift2 k g (Arr (map Atom xs)) y) (map Atom zs))) (fun us => Ok (Arr us))
         else if length (map (@Atom A) xs) =? length (map (@Atom A) zs) then bind (oks (map (fun p => lift2 k g (fst p) (snd p)) (combine (map Atom xs) (map Atom zs)))) (fun us => Ok (Arr us))
         else match map (@Atom A) xs, map (@Atom A) zs with
              | [x], _ => bind (oks (map (fun y => lift2 k g x y) (map Atom zs))) (fun us => Ok (Arr us))
              | _, [y] => bind (oks (map (fun x => lift2 k g x y) (map Atom xs))) (fun us => Ok (Arr us))
              | _, _ => Err ValueError
              end).
      rewrite !depth_flat, !map_length. replace (1 <? 1) with false by reflexivity. now replace (length xs =? length zs) with true by (symmetry; apply Nat.eqb_eq; lia). }
    replace (S (1 + 1)) with (S k) by reflexivity. rewrite EL. clear EL.
    assert (EC : combine (map (@Atom A) xs) (map (@Atom A) zs) = map (fun p => (Atom (fst p), Atom (snd p))) (combine xs zs)).
    { clear. revert zs. induction xs as [|a xs IH]; intros [|c zs]; auto. cbn [map combine fst snd]. now rewrite IH. }
    rewrite EC, map_map. cbn [fst snd]. pose proof (map_lift (A * A) (fun p => lift2 k g (Atom (fst p)) (Atom (snd p))) (fun p => g (fst p) (snd p)) (combine xs zs) (fun p => eq_refl)) as M. clearbody k.
    assert (NC : forall i a c, nth_error xs i = Some a -> nth_error zs i = Some c -> nth_error (combine xs zs) i = Some (a, c)).
    { clear. revert zs. induction xs as [|a xs IH]; intros [|c zs] [|i] x z HA HC; try discriminate; cbn in *; [congruence|auto]. }
    assert (NS : forall i a c, nth_error (combine xs zs) i = Some (a, c) -> nth_error xs i = Some a /\ nth_error zs i = Some c).
    { clear. revert zs. induction xs as [|a xs IH]; intros [|c zs] [|i] x z HA; try discriminate; cbn in *; [injection HA as <- <-; auto|auto]. }
    destruct (oks (map (fun p => lift2 k g (Atom (fst p)) (Atom (snd p))) (combine xs zs))); cbn [bind].
    + destruct M as (ys & -> & F). exists ys. split; [split; [pose proof (F2_len _ _ _ _ _ F); rewrite combine_length in H; lia|auto]|]. intros i a c HA HC. destruct (F2_get _ _ _ _ _ _ _ F (NC _ _ _ HA HC)) as (y & EY & EG). eauto.
    + destruct M as (i & [a c] & HC & H). exists i, a, c. destruct (NS _ _ _ HC). auto.
Qed.
End Proofs.

Section Main.
Context {A : Type}.
Variables (lit : string -> A) (sbin : binop -> A -> A -> result A) (sun : unop -> A -> result A) (lib : string -> string -> list A -> result A) (const : string -> string -> A)
  (larger smaller : A -> A -> A) (index : A -> option Z).
Implicit Types (v w : value A) (xs ys : list A).
Notation meaning := (meaning lit sbin sun lib const).
Notation ATTR := (py_attr const).
Notation CALL := (py_call lib larger smaller index).
Notation BIN := (py_bin sbin).
Notation UN := (py_un sun).
Notation EV := (ev (fun c => PNum (Atom (lit c))) CALL BIN UN (fun _ _ => Err TypeError)).
Notation compute := (math_compute lit sbin sun lib const larger smaller index).

Lemma lib_obj : forall b f, In f of_one \/ In f of_two -> library_object ATTR py_globals b f = Ok (PFun (fst (home b f)) (snd (home b f))).
Proof.
  intros b f H. unfold of_one, of_two in H. cbn [In] in H.
  destruct H as [H|H]; repeat (destruct H as [<-|H]; [destruct b; reflexivity|]); destruct H.
Qed.
Lemma lib_const : forall b x, x = "pi" \/ x = "e" -> library_object ATTR py_globals b x = Ok (PNum (Atom (const (module_name b) x))).
Proof. intros b x [->| ->]; destruct b; reflexivity. Qed.
Lemma home_two : forall b f, In f of_two -> two_arguments (snd (home b f)) = true /\ smem (snd (home b f)) ["max"; "min"] = false /\ (fst (home b f) = "math" <-> b = BMath) /\ fst (home b f) <> "builtins".
Proof. intros b f H. unfold of_two in H. cbn [In] in H. repeat (destruct H as [<-|H]; [destruct b; cbn; repeat split; discriminate || auto|]). destruct H. Qed.
Lemma home_one : forall b f, In f of_one -> two_arguments (snd (home b f)) = false /\ smem (snd (home b f)) ["max"; "min"] = false /\ (fst (home b f) = "math" -> b = BMath /\ f <> "abs").
Proof. intros b f H. unfold of_one in H. cbn [In] in H. repeat (destruct H as [<-|H]; [destruct b; cbn; repeat split; discriminate || auto; discriminate|]). destruct H. Qed.

Variables (params : list string) (b : backend) (n : nat) (args : dict (value A)) (col : string -> list A).
Hypothesis HN : 1 <= n.
Hypothesis HIN : forall x, In x params -> exists v, dget x args = Some v /\ rel n v (col x).
Hypothesis HOUT : forall x, ~ In x params -> dget x args = None.
Let env (i : nat) (x : string) : option A := if smem x params then nth_error (col x) i else None.
Let D : dict (@pv A) := map (fun kv => (fst kv, PNum (snd kv))) args.

Lemma dget_D : forall x, dget x D = option_map PNum (dget x args).
Proof. intros x. unfold D. clear. induction args as [|[k v] d IH]; auto. cbn [map dget fst snd]. destruct (String.eqb x k); auto. Qed.
Lemma rel_nth : forall v xs i, rel n v xs -> i < n -> exists x, nth_error xs i = Some x.
Proof. intros v xs i [L _] H. destruct (nth_error xs i) eqn:E; eauto. apply nth_error_None in E. lia. Qed.
Lemma rel_const : forall x : A, rel n (Atom x) (repeat x n).
Proof. intros x. split; [apply repeat_length|left; eauto]. Qed.
Lemma call_one : forall f v xs, In f of_one -> (b = BMath -> n = 1 \/ f = "abs") -> rel n v xs ->
  match call_function lib larger smaller index (fst (home b f)) (snd (home b f)) [v] with
  | Ok w => exists ys, rel n w ys /\ Forall2 (fun x y => lib (fst (home b f)) (snd (home b f)) [x] = Ok y) xs ys
  | Err _ => exists i x, nth_error xs i = Some x /\ forall y, lib (fst (home b f)) (snd (home b f)) [x] <> Ok y
  end.
Proof.
  intros f v xs HF HB HR. destruct (home_one b f HF) as (H2 & HM & HH). unfold call_function. apply smem_false in HM.
  destruct (String.eqb_spec (fst (home b f)) "math") as [EM|NM].
  - destruct (HH EM) as [EB NA]. destruct (HB EB) as [N1|]; [|contradiction]. destruct HR as [L [(x & -> & ->)|[NE _]]]; [|contradiction]. cbn [map oks bind length]. rewrite H2. replace (1 =? 1) with true by reflexivity. rewrite N1 in *.
    destruct (lib (fst (home b f)) (snd (home b f)) [x]) as [y|e] eqn:E; cbn [bind].
    + exists [y]. split; [split; auto; left; exists y; auto|]. constructor; auto.
    + exists 0, x. split; auto. rewrite E. discriminate.
  - assert (M1 : String.eqb (snd (home b f)) "max" = false) by (apply String.eqb_neq; intros X; apply HM; rewrite X; cbn; auto).
    assert (M2 : String.eqb (snd (home b f)) "min" = false) by (apply String.eqb_neq; intros X; apply HM; rewrite X; cbn; auto).
    rewrite M1, M2, H2. destruct (String.eqb (fst (home b f)) "builtins"); apply (lift1_rel n (fun a => lib (fst (home b f)) (snd (home b f)) [a]) v xs HN HR).
Qed.
Lemma call_two : forall f v w xs zs, In f of_two -> (b = BMath -> n = 1) -> rel n v xs -> rel n w zs ->
  match call_function lib larger smaller index (fst (home b f)) (snd (home b f)) [v; w] with
  | Ok u => exists ys, rel n u ys /\ forall i x z, nth_error xs i = Some x -> nth_error zs i = Some z -> exists y, nth_error ys i = Some y /\ lib (fst (home b f)) (snd (home b f)) [x; z] = Ok y
  | Err _ => exists i x z, nth_error xs i = Some x /\ nth_error zs i = Some z /\ forall y, lib (fst (home b f)) (snd (home b f)) [x; z] <> Ok y
  end.
Proof.
  intros f v w xs zs HF HB HR HW. destruct (home_two b f HF) as (H2 & HM & HH & HBI). unfold call_function. apply smem_false in HM.
  destruct (String.eqb_spec (fst (home b f)) "math") as [EM|NM].
  - assert (N1 := HB (proj1 HH EM)). destruct HR as [L [(x & -> & ->)|[NE _]]]; [|contradiction]. destruct HW as [L2 [(z & -> & ->)|[NE _]]]; [|contradiction]. cbn [map oks bind length]. rewrite H2. replace (2 =? 2) with true by reflexivity. rewrite N1 in *.
    destruct (lib (fst (home b f)) (snd (home b f)) [x; z]) as [y|e] eqn:E; cbn [bind].
    + exists [y]. split; [split; auto; left; exists y; auto|]. intros [|i] a c HA HC; cbn in HA, HC; [|destruct i; discriminate]. injection HA as <-. injection HC as <-. exists y; auto.
    + exists 0, x, z. repeat split; auto. rewrite E. discriminate.
  - assert (M1 : String.eqb (snd (home b f)) "max" = false) by (apply String.eqb_neq; intros X; apply HM; rewrite X; cbn; auto).
    assert (M2 : String.eqb (snd (home b f)) "min" = false) by (apply String.eqb_neq; intros X; apply HM; rewrite X; cbn; auto).
    apply String.eqb_neq in HBI. rewrite HBI, M1, M2, H2. apply (lift2_rel n (fun a c => lib (fst (home b f)) (snd (home b f)) [a; c]) v w xs zs HN HR HW).
Qed.
Lemma ev_spec : forall e, elementwise params b n e ->
  match EV (intended ATTR py_globals b D) e with
  | Ok r => exists v ys, r = PNum v /\ rel n v ys /\ forall i, i < n -> meaning b (env i) e = nth_error ys i
  | Err _ => exists i, i < n /\ meaning b (env i) e = None
  end.
Proof.
  induction 1 as [c|x Hx|x Hx|op l r HO HL IHl HR IHr|op e HO HE IHe|f e HF HP HB HE IHe|f e1 e2 HF HP HB H1 IH1 H2 IH2].
  - cbn. exists (Atom (lit c)), (repeat (lit c) n). split; auto. split; [apply rel_const|]. intros i Hi. now rewrite nth_error_repeat.
  - cbn [ev]. unfold intended. rewrite dget_D. destruct (HIN x Hx) as (v & EV & HR). rewrite EV. cbn [option_map]. exists v, (col x). split; auto. split; auto. intros i Hi.
    cbn [MathSampleProps.meaning]. unfold env. replace (smem x params) with true by (symmetry; now apply smem_In). destruct (rel_nth _ _ _ HR Hi) as [y ->]. reflexivity.
  - destruct (in_dec string_dec x params) as [HI|NI].
    + cbn [ev]. unfold intended. rewrite dget_D. destruct (HIN x HI) as (v & EV & HR). rewrite EV. cbn [option_map]. exists v, (col x). split; auto. split; auto. intros i Hi.
      cbn [MathSampleProps.meaning]. unfold env. replace (smem x params) with true by (symmetry; now apply smem_In). destruct (rel_nth _ _ _ HR Hi) as [y ->]. reflexivity.
    + cbn [ev]. unfold intended. rewrite dget_D, (HOUT x NI). cbn [option_map]. rewrite lib_const by auto. exists (Atom (const (module_name b) x)), (repeat (const (module_name b) x) n). split; auto. split; [apply rel_const|].
      intros i Hi. cbn [MathSampleProps.meaning]. unfold env. replace (smem x params) with false by (symmetry; now apply smem_false). now rewrite nth_error_repeat.
  - cbn [ev]. destruct (EV (intended ATTR py_globals b D) l) as [rl|el]; cbn [bind].
    2:{ destruct IHl as (i & Hi & E). exists i. split; auto. cbn [MathSampleProps.meaning]. now rewrite E. }
    destruct IHl as (v & xs & -> & R1 & M1). destruct (EV (intended ATTR py_globals b D) r) as [rr|er]; cbn [bind].
    2:{ destruct IHr as (i & Hi & E). exists i. split; auto. cbn [MathSampleProps.meaning]. rewrite E. now destruct (meaning b (env i) l). }
    destruct IHr as (w & zs & -> & R2 & M2). cbn [py_bin]. pose proof (lift2_rel n (sbin op) v w xs zs HN R1 R2) as LR. destruct (broadcast (sbin op) v w) as [u|e]; cbn [bind].
    + destruct LR as (ys & RU & HY). exists u, ys. split; auto. split; auto. intros i Hi. cbn [MathSampleProps.meaning]. rewrite M1, M2 by auto. destruct (rel_nth _ _ _ R1 Hi) as [x EX]. destruct (rel_nth _ _ _ R2 Hi) as [z EZ].
      destruct (HY i x z EX EZ) as (y & EY & EG). now rewrite EX, EZ, EY, EG.
    + destruct LR as (i & x & z & EX & EZ & HG). assert (Hi : i < n) by (destruct R1 as [L _]; rewrite <- L; apply nth_error_Some; congruence). exists i. split; auto. cbn [MathSampleProps.meaning]. rewrite M1, M2, EX, EZ by auto.
      destruct (sbin op x z) as [y|]; auto. now destruct (HG y).
  - cbn [ev]. destruct (EV (intended ATTR py_globals b D) e) as [rl|el]; cbn [bind].
    2:{ destruct IHe as (i & Hi & E). exists i. split; auto. cbn [MathSampleProps.meaning]. now rewrite E. }
    destruct IHe as (v & xs & -> & R1 & M1). cbn [py_un]. pose proof (lift1_rel n (sun op) v xs HN R1) as LR. destruct (lift1 (sun op) v) as [u|er]; cbn [bind].
    + destruct LR as (ys & RU & HY). exists u, ys. split; auto. split; auto. intros i Hi. cbn [MathSampleProps.meaning]. rewrite M1 by auto. destruct (rel_nth _ _ _ R1 Hi) as [x EX]. destruct (F2_get _ _ _ _ _ _ _ HY EX) as (y & EY & EG). now rewrite EX, EY, EG.
    + destruct LR as (i & x & EX & HG). assert (Hi : i < n) by (destruct R1 as [L _]; rewrite <- L; apply nth_error_Some; congruence). exists i. split; auto. cbn [MathSampleProps.meaning]. rewrite M1, EX by auto.
      destruct (sun op x) as [y|]; auto. now destruct (HG y).
  - cbn [ev]. unfold intended at 1. rewrite dget_D, (HOUT f HP). cbn [option_map]. rewrite lib_obj by auto. cbn [bind]. destruct (EV (intended ATTR py_globals b D) e) as [rl|el]; cbn [bind].
    2:{ destruct IHe as (i & Hi & E). exists i. split; auto. cbn [MathSampleProps.meaning]. now rewrite E. }
    destruct IHe as (v & xs & -> & R1 & M1). cbn [py_call numbers map oks bind]. unfold numbers. cbn [map oks bind]. pose proof (call_one f v xs HF HB R1) as LR.
    destruct (call_function lib larger smaller index (fst (home b f)) (snd (home b f)) [v]) as [u|er]; cbn [bind].
    + destruct LR as (ys & RU & HY). exists u, ys. split; auto. split; auto. intros i Hi. cbn [MathSampleProps.meaning]. rewrite M1 by auto. destruct (rel_nth _ _ _ R1 Hi) as [x EX]. destruct (F2_get _ _ _ _ _ _ _ HY EX) as (y & EY & EG). now rewrite EX, EY, EG.
    + destruct LR as (i & x & EX & HG). assert (Hi : i < n) by (destruct R1 as [L _]; rewrite <- L; apply nth_error_Some; congruence). exists i. split; auto. cbn [MathSampleProps.meaning]. rewrite M1, EX by auto.
      destruct (lib (fst (home b f)) (snd (home b f)) [x]) as [y|]; auto. now destruct (HG y).
  - cbn [ev]. unfold intended at 1. rewrite dget_D, (HOUT f HP). cbn [option_map]. rewrite lib_obj by auto. cbn [bind]. destruct (EV (intended ATTR py_globals b D) e1) as [rl|el]; cbn [bind].
    2:{ destruct IH1 as (i & Hi & E). exists i. split; auto. cbn [MathSampleProps.meaning]. now rewrite E. }
    destruct IH1 as (v & xs & -> & R1 & M1). destruct (EV (intended ATTR py_globals b D) e2) as [rr|er]; cbn [bind].
    2:{ destruct IH2 as (i & Hi & E). exists i. split; auto. cbn [MathSampleProps.meaning]. rewrite E. now destruct (meaning b (env i) e1). }
    destruct IH2 as (w & zs & -> & R2 & M2). cbn [py_call]. unfold numbers. cbn [map oks bind]. pose proof (call_two f v w xs zs HF HB R1 R2) as LR.
    destruct (call_function lib larger smaller index (fst (home b f)) (snd (home b f)) [v; w]) as [u|er]; cbn [bind].
    + destruct LR as (ys & RU & HY). exists u, ys. split; auto. split; auto. intros i Hi. cbn [MathSampleProps.meaning]. rewrite M1, M2 by auto. destruct (rel_nth _ _ _ R1 Hi) as [x EX]. destruct (rel_nth _ _ _ R2 Hi) as [z EZ].
      destruct (HY i x z EX EZ) as (y & EY & EG). now rewrite EX, EZ, EY, EG.
    + destruct LR as (i & x & z & EX & EZ & HG). assert (Hi : i < n) by (destruct R1 as [L _]; rewrite <- L; apply nth_error_Some; congruence). exists i. split; auto. cbn [MathSampleProps.meaning]. rewrite M1, M2, EX, EZ by auto.
      destruct (lib (fst (home b f)) (snd (home b f)) [x; z]) as [y|]; auto. now destruct (HG y).
Qed.
End Main.

Lemma elementwise_allowed : forall params b n e, elementwise params b n e -> allowed params library e.
Proof.
  induction 1; try (now constructor).
  - apply al_lib. destruct H as [->| ->]; cbn; tauto.
  - apply al_call; [|intros x [<-|[]]; auto]. unfold of_one in H. cbn [In] in H. cbn. tauto.
  - apply al_call; [|intros x [<-|[<-|[]]]; auto]. unfold of_two in H. cbn [In] in H. cbn. tauto.
Qed.

(** Such expressions are accepted. *)
Theorem C114_accepted : forall params b n e, elementwise params b n e -> exists m, prepare b params [SExpr e] = Ok m.
Proof.
  intros params b n e H. apply (C28_accepts_exactly_whitelist b). constructor; auto. cbn. now apply (elementwise_allowed params b n).
Qed.

Section Node.
Context {A : Type}.
Variables (lit : string -> A) (sbin : binop -> A -> A -> result A) (sun : unop -> A -> result A) (lib : string -> string -> list A -> result A) (const : string -> string -> A)
  (larger smaller : A -> A -> A) (index : A -> option Z).
Implicit Types (v w : value A) (xs ys : list A) (st : gs A).
Notation compute := (math_compute lit sbin sun lib const larger smaller index).
Notation meaning := (meaning lit sbin sun lib const).
(** The parameters of sample [i]. *)
Definition sample (params : list string) (col : string -> list A) (i : nat) (x : string) : option A := if smem x params then nth_error (col x) i else None.
(** The node's parameters, one value per sample. *)
Definition sampled (st : gs A) (node : string) (params : list string) (col : string -> list A) : Prop := forall k, In k params -> has_values st node k (col k).
(** Nothing but the parameter [k] of the node, unless it was fixed, differs. *)
Definition only_changes (st st' : gs A) (node k : string) : Prop := gs_n st' = gs_n st /\ forall nd p w, (nd, p) <> (node, k) \/ fixed_in st nd p -> (reads st' nd p w <-> reads st nd p w).

Lemma stored_rel : forall n xs v, 1 <= n -> length xs = n -> stored_as n xs v -> rel n v xs.
Proof.
  intros n xs v HN L [(-> & x & -> & ->)|(N & ->)]; split; auto. left. exists x. auto.
Qed.
Lemma rel_expands : forall n xs v, rel n v xs -> exists w, store_value n v = Ok w /\ stored_as n xs w.
Proof.
  intros n xs v [L [(x & -> & ->)|[NE ->]]]; unfold store_value.
  - destruct (n =? 1) eqn:E; [apply Nat.eqb_eq in E; subst; eexists; split; [reflexivity|left; split; auto; exists x; auto]|].
    apply Nat.eqb_neq in E. eexists. split; [reflexivity|]. right. split; auto. f_equal. clear. induction n; cbn; congruence.
  - apply Nat.eqb_neq in NE as E. rewrite E, map_length, L, Nat.eqb_refl. eexists. split; [reflexivity|right; auto].
Qed.
Lemma inputs_of : forall st node (params : list string) col, reachable st -> sampled st node params col ->
  exists args, build_inputs st node params [] = Ok args /\ dkeys args = params /\ (forall x, In x params -> exists v, dget x args = Some v /\ rel (gs_n st) v (col x) /\ stored_as (gs_n st) (col x) v).
Proof.
  intros st node params col R HS. assert (W := reachable_wf _ R). pose proof (wf_n _ W) as Wn. assert (WK := wf_wk _ W). induction params as [|k params IH]; [exists []; repeat split; auto; intros ? []|].
  destruct IH as (args & EB & EK & HA); [intros x Hx; apply HS; now right|]. destruct (HS k (or_introl eq_refl)) as (L & v & SV & HR).
  assert (IT : gs_item st node k = Ok v).
  { unfold reads in HR. rewrite reads_look in HR by auto. unfold look in HR. unfold gs_item, gs_getitem. destruct (dget node (gs_states st)); [|discriminate]. now rewrite HR. }
  exists ((k, v) :: args). cbn [build_inputs dget]. rewrite IT, EB. split; auto. split; [cbn; f_equal; auto|].
  intros x Hx. cbn [dget]. destruct (String.eqb_spec x k) as [->|NE]; [exists v; split; auto; split; auto; now apply stored_rel|]. destruct Hx as [->|Hx]; [congruence|]. auto.
Qed.
Lemma save_rel : forall st node k v xs, reachable st -> has_dot node = false -> has_dot k = false -> rel (gs_n st) v xs ->
  exists st', save_results_gs st node [k] v = (st', None) /\ only_changes st st' node k /\ (~ fixed_in st node k -> has_values st' node k xs).
Proof.
  intros st node k v xs R ND NK HR. assert (W := reachable_wf _ R). assert (WK := wf_wk _ W). cbn [save_results_gs].
  destruct (gs_set st node k v false) as [st' r] eqn:ES. destruct (set_spec _ _ _ _ _ _ _ W ES) as (W' & N' & RR & _ & HL & _ & HV & _). destruct (rel_expands _ _ _ HR) as (w & SV & SW).
  assert (r = None). { destruct RR as [->| ->]; auto. destruct (HV eq_refl) as [H|[H|H]]; congruence. } subst r.
  exists st'. split; auto. split.
  - split; auto. intros nd p u H. unfold reads. rewrite !reads_look by (auto using wf_wk). rewrite HL. destruct (String.eqb nd node && String.eqb p k && negb (is_fixed st node k))%bool eqn:E; [|tauto].
    apply andb_prop in E. destruct E as [E E3]. apply andb_prop in E. destruct E as [E1 E2]. apply String.eqb_eq in E1, E2. subst. apply negb_true_iff in E3. apply fixed_false in E3. destruct H as [H|H]; [congruence|tauto].
  - intros NF. apply fixed_false in NF. split; [rewrite N'; apply HR|]. exists w. rewrite N'. split; auto. unfold reads. apply reads_look; [now apply wf_wk|]. rewrite HL, NF, !String.eqb_refl. cbn [andb negb]. now rewrite SV.
Qed.
(** ** C114 *)
(** Every sample gets the value of the expression at its own parameters; when one of the samples has no value the node fails and the state is as before. *)
Theorem C114_samples : forall params b e m node st col, prepare b params [SExpr e] = Ok m -> elementwise params b (gs_n st) e -> reachable st -> sampled st node params col ->
  has_dot node = false -> ~ In (module_name b) params -> (forall x, In x params -> has_dot x = false) -> (b = BJax -> exists x, In x params /\ enters x e) ->
  (forall ys, length ys = gs_n st -> (forall i, i < gs_n st -> meaning b (sample params col i) e = nth_error ys i) ->
     exists st' v, compute m params node st = (st', Ok v) /\ only_changes st st' node "function_node_result" /\
       (~ fixed_in st node "function_node_result" -> has_values st' node "function_node_result" ys)) /\
  ((exists i, i < gs_n st /\ meaning b (sample params col i) e = None) -> exists er, compute m params node st = (st, Err er)).
Proof.
  intros params b e m node st col HP HE R HS ND NM NP _. assert (W := reachable_wf _ R). pose proof (wf_n _ W) as Wn.
  destruct (inputs_of st node params col R HS) as (args & EB & EK & HA).
  assert (HO : forall x, ~ In x params -> dget x args = None) by (intros x Hx; apply dget_None; now rewrite EK).
  set (D := map (fun kv : string * value A => (fst kv, PNum (snd kv))) args).
  assert (DK : dkeys D = params) by (unfold D, dkeys; rewrite map_map; exact EK).
  assert (EF : node_eval (fun c => PNum (Atom (lit c))) (py_attr const) (py_call lib larger smaller index) (py_bin sbin) (py_un sun) (fun _ _ => Err TypeError) py_globals D m =
               ev (fun c => PNum (Atom (lit c))) (py_call lib larger smaller index) (py_bin sbin) (py_un sun) (fun _ _ => Err TypeError) (intended (py_attr const) py_globals b D) e).
  { apply C28_meaning; rewrite DK; auto. }
  pose proof (ev_spec lit sbin sun lib const larger smaller index params b (gs_n st) args col Wn (fun x Hx => match HA x Hx with ex_intro _ v (conj a (conj c _)) => ex_intro _ v (conj a c) end) HO e HE) as EV.
  fold D in EV. unfold math_compute. rewrite EB. unfold eval_func. fold D. rewrite EF.
  destruct (ev _ _ _ _ _ _ e) as [r|er]; cbn [bind].
  - destruct EV as (v & zs & -> & HR & HM). split.
    + intros ys LY HY. assert (zs = ys).
      { destruct HR as [L _]. apply nth_error_ext; [lia|]. intros i Hi. assert (Hi' : i < gs_n st) by lia. rewrite <- (HY i Hi'), <- (HM i Hi'). reflexivity. }
      subst zs. destruct (save_rel st node "function_node_result" v ys R ND eq_refl HR) as (st' & -> & OC & HV). exists st', v. auto.
    + intros (i & Hi & E). exfalso. unfold sample in E. rewrite HM in E by auto. apply nth_error_None in E. destruct HR as [L _]. lia.
  - split.
    + intros ys LY HY. exfalso. destruct EV as (i & Hi & E). assert (X := HY i Hi). unfold sample in X. rewrite E in X. symmetry in X. apply nth_error_None in X. lia.
    + intros _. eauto.
Qed.

(** ** max, min and the math backend *)
Lemma call_eval : forall b params f es node st m args, prepare b params [SExpr (Call (Name f) es)] = Ok m -> build_inputs st node params [] = Ok args -> dkeys args = params ->
  ~ In (module_name b) params -> (forall x, In x params -> has_dot x = false) -> eval_func lit sbin sun lib const larger smaller index m args =
    bind (ev (fun c => PNum (Atom (lit c))) (py_call lib larger smaller index) (py_bin sbin) (py_un sun) (fun _ _ => Err TypeError)
      (intended (py_attr const) py_globals b (map (fun kv => (fst kv, PNum (snd kv))) args)) (Call (Name f) es)) (fun r => match r with PNum v => Ok v | _ => Err TypeError end).
Proof.
  intros b params f es node st m args HP EB EK NM NP. unfold eval_func. f_equal. assert (DK : dkeys (map (fun kv : string * value A => (fst kv, PNum (snd kv))) args) = params) by (unfold dkeys; rewrite map_map; exact EK).
  apply C28_meaning; rewrite DK; auto.
Qed.
(** The largest of the samples. *)
Definition largest (xs : list A) : option A := match xs with [] => None | x :: xs' => Some (fold_left larger xs' x) end.
Lemma flatten_atoms : forall xs, flat_map flatten (map Atom xs) = xs.
Proof. induction xs as [|x xs IH]; auto. cbn [map flat_map flatten app]. now rewrite IH. Qed.
Lemma dget_args : forall (args : dict (value A)) x, dget x (map (fun kv => (fst kv, PNum (snd kv))) args) = option_map (@PNum A) (dget x args).
Proof. induction args as [|[k v] d IH]; intros x; auto. cbn [map dget fst snd]. destruct (String.eqb x k); auto. Qed.
(** With numpy, [max(x)] is the largest of all samples, in every sample; a second argument is an axis: [max(x, 0)] is [max(x)] for several samples and [x] itself for one. *)
Theorem C114_max : forall params x c m m2 node st xs top, In x params -> ~ In "max" params -> ~ In "np" params -> (forall x, In x params -> has_dot x = false) -> has_dot node = false ->
  prepare BNumpy params [SExpr (Call (Name "max") [Name x])] = Ok m -> prepare BNumpy params [SExpr (Call (Name "max") [Name x; Const c])] = Ok m2 -> index (lit c) = Some 0%Z ->
  reachable st -> (exists col, sampled st node params col /\ col x = xs) -> largest xs = Some top -> ~ fixed_in st node "function_node_result" ->
  (exists st' v, compute m params node st = (st', Ok v) /\ only_changes st st' node "function_node_result" /\ has_values st' node "function_node_result" (repeat top (gs_n st))) /\
  (exists st' v, compute m2 params node st = (st', Ok v) /\ only_changes st st' node "function_node_result" /\ has_values st' node "function_node_result" (repeat top (gs_n st))).
Proof.
  intros params x c m m2 node st xs top HX NMAX NNP NP ND HP HP2 HI R (col & HS & EC) HT NF. assert (W := reachable_wf _ R). pose proof (wf_n _ W) as Wn.
  destruct (inputs_of st node params col R HS) as (args & EB & EK & HA). destruct (HA x HX) as (v & EV & HR & SV). rewrite EC in *.
  assert (EXT : extreme larger v = Ok (Atom top)).
  { destruct HR as [L [(y & -> & E)|[NE ->]]]; unfold extreme.
    - destruct SV as [(E1 & z & E2 & E3)|[_ E3]]; [|discriminate]. injection E3 as <-. cbn [flatten]. rewrite E2 in HT. cbn in HT |- *. congruence.
    - cbn [flatten]. rewrite flatten_atoms. destruct xs as [|y xs']; [discriminate|]. cbn [largest] in HT. now injection HT as <-. }
  assert (RT : rel (gs_n st) (Atom top) (repeat top (gs_n st))) by (split; [apply repeat_length|left; eauto]).
  assert (NIN : dget "max" args = None) by (apply dget_None; now rewrite EK).
  split; unfold math_compute; rewrite EB.
  - erewrite call_eval; eauto. cbn [ev]. unfold intended at 1. rewrite dget_args, NIN. cbn [option_map]. replace (library_object (py_attr const) py_globals BNumpy "max") with (@Ok (@pv A) (PFun "np" "max")) by reflexivity. cbn [bind].
    unfold intended. rewrite dget_args, EV. cbn [option_map bind py_call]. unfold numbers. cbn [map oks bind]. cbn [call_function String.eqb Ascii.eqb Bool.eqb reduce]. rewrite EXT. cbn [bind].
    destruct (save_rel st node "function_node_result" (Atom top) _ R ND eq_refl RT) as (st' & -> & OC & HV). exists st', (Atom top). auto.
  - erewrite call_eval; eauto. cbn [ev]. unfold intended at 1. rewrite dget_args, NIN. cbn [option_map]. replace (library_object (py_attr const) py_globals BNumpy "max") with (@Ok (@pv A) (PFun "np" "max")) by reflexivity. cbn [bind].
    unfold intended. rewrite dget_args, EV. cbn [option_map bind py_call]. unfold numbers. cbn [map oks bind]. cbn [call_function String.eqb Ascii.eqb Bool.eqb reduce]. rewrite HI. cbn [Z.eqb orb].
    assert (ER : match v with Atom _ => Ok v | Arr _ => if depth v =? 1 then extreme larger v else Err RuntimeError end = Ok (Atom top)).
    { destruct HR as [L [(y & -> & E)|[NE ->]]]; [|now rewrite depth_flat]. unfold extreme in EXT. cbn in EXT. congruence. }
    rewrite ER. cbn [bind]. destruct (save_rel st node "function_node_result" (Atom top) _ R ND eq_refl RT) as (st' & -> & OC & HV). exists st', (Atom top). auto.
Qed.
(** The larger of two parameters cannot be computed with numpy for several samples: the second is taken for an axis. *)
Theorem C114_two_max : forall params x y m node st, In x params -> In y params -> ~ In "max" params -> ~ In "np" params -> (forall x, In x params -> has_dot x = false) ->
  prepare BNumpy params [SExpr (Call (Name "max") [Name x; Name y])] = Ok m -> reachable st -> (exists col, sampled st node params col) -> gs_n st <> 1 ->
  compute m params node st = (st, Err TypeError).
Proof.
  intros params x y m node st HX HY NMAX NNP NP HP R (col & HS) N1. destruct (inputs_of st node params col R HS) as (args & EB & EK & HA). destruct (HA x HX) as (v & EV & HR & SV). destruct (HA y HY) as (w & EW & HRW & SW).
  assert (NIN : dget "max" args = None) by (apply dget_None; now rewrite EK). unfold math_compute. rewrite EB. erewrite call_eval; eauto. cbn [ev]. unfold intended at 1. rewrite dget_args, NIN. cbn [option_map].
  replace (library_object (py_attr const) py_globals BNumpy "max") with (@Ok (@pv A) (PFun "np" "max")) by reflexivity. cbn [bind].
  unfold intended. rewrite !dget_args, EV, EW. cbn [option_map bind py_call]. unfold numbers. cbn [map oks bind]. cbn [call_function String.eqb Ascii.eqb Bool.eqb reduce].
  destruct SW as [(E & _)|[_ ->]]; [contradiction|]. reflexivity.
Qed.
(** The functions of the math backend cannot be sampled several times at once. *)
Theorem C114_math_many : forall params f x m node st, In f of_one -> f <> "abs" -> In x params -> ~ In f params -> ~ In "math" params -> (forall x, In x params -> has_dot x = false) ->
  prepare BMath params [SExpr (Call (Name f) [Name x])] = Ok m -> reachable st -> (exists col, sampled st node params col) -> gs_n st <> 1 ->
  compute m params node st = (st, Err TypeError).
Proof.
  intros params f x m node st HF NA HX NMAX NNP NP HP R (col & HS) N1. destruct (inputs_of st node params col R HS) as (args & EB & EK & HA). destruct (HA x HX) as (v & EV & HR & SV).
  assert (NIN : dget f args = None) by (apply dget_None; now rewrite EK). unfold math_compute. rewrite EB. erewrite call_eval; eauto. cbn [ev]. unfold intended at 1. rewrite dget_args, NIN. cbn [option_map].
  rewrite lib_obj by auto. cbn [bind]. unfold intended. rewrite !dget_args, EV. cbn [option_map bind py_call]. unfold numbers. cbn [map oks bind]. unfold call_function.
  replace (fst (home BMath f)) with "math". 2:{ unfold home. apply String.eqb_neq in NA. rewrite NA. destruct (String.eqb f "deg2rad"), (String.eqb f "rad2deg"), (String.eqb f "power"); reflexivity. }
  destruct SV as [(E & _)|[_ ->]]; [contradiction|]. reflexivity.
Qed.
End Node.

(** ** Integers as numbers *)
Definition z_lit (c : string) : Z := if String.eqb c "10" then 10 else 0.
Definition z_bin (op : binop) (x y : Z) : result Z := match op with Add => Ok (x + y)%Z | Sub => Ok (x - y)%Z | Mult => Ok (x * y)%Z | _ => Err TypeError end.
Definition z_un (op : unop) (x : Z) : result Z := match op with USub => Ok (- x)%Z | UAdd => Ok x | _ => Err TypeError end.
Definition z_lib (m f : string) (l : list Z) : result Z := match l with [x] => if String.eqb f "abs" then Ok (Z.abs x) else Err TypeError | _ => Err TypeError end.
Definition z_compute := math_compute z_lit z_bin z_un z_lib (fun _ _ => 3%Z) Z.max Z.min Some.
Definition z_state (n : nat) (x y : value Z) : gs Z := run (gs_fresh n) [OSet "d" "x" x false; OSet "d" "y" y false].
Definition zs (l : list Z) : value Z := Arr (map Atom l).
Definition z_cols (k : string) : list Z := if String.eqb k "x" then [-3; 5; 2]%Z else [1; 2; 3]%Z.
Definition z_expr : expr := BinOp Add (Name "y") (BinOp Mult (Const "10") (Call (Name "abs") [Name "x"])).
(** [y + 10 * abs(x)] for three samples. *)
Example C114_case : exists m st' v, prepare BNumpy ["x"; "y"] [SExpr z_expr] = Ok m /\
  z_compute m ["x"; "y"] "d" (z_state 3 (zs [-3; 5; 2]%Z) (zs [1; 2; 3]%Z)) = (st', Ok v) /\ has_values st' "d" "function_node_result" [31; 52; 23]%Z.
Proof.
  set (st := z_state 3 (zs [-3; 5; 2]%Z) (zs [1; 2; 3]%Z)).
  assert (EW : elementwise ["x"; "y"] BNumpy (gs_n st) z_expr).
  { apply el_bin; [constructor|apply el_param; cbn; auto|]. apply el_bin; [constructor|constructor|]. apply el_one; [cbn; auto|cbn; intuition discriminate|discriminate|]. apply el_param; cbn; auto. }
  destruct (C114_accepted _ _ _ _ EW) as [m HP]. exists m.
  destruct (C114_samples z_lit z_bin z_un z_lib (fun _ _ => 3%Z) Z.max Z.min Some ["x"; "y"] BNumpy z_expr m "d" st z_cols HP EW) as [S1 _].
  - exists 3, [OSet "d" "x" (zs [-3; 5; 2]%Z) false; OSet "d" "y" (zs [1; 2; 3]%Z) false]. split; [lia|reflexivity].
  - intros k [<-|[<-|[]]]; (split; [reflexivity|]; eexists; split; [right; split; [discriminate|reflexivity]|reflexivity]).
  - reflexivity.
  - cbn. intuition discriminate.
  - intros x [<-|[<-|[]]]; reflexivity.
  - discriminate.
  - destruct (S1 [31; 52; 23]%Z eq_refl) as (st' & v & EC & _ & HV).
    + intros i Hi. change (gs_n st) with 3 in Hi. do 3 (destruct i as [|i]; [reflexivity|]). lia.
    + exists st', v. split; auto. split; auto. apply HV. intros (l & H & HI). cbv in H. injection H as <-. destruct HI.
Qed.
(** [max(x, 0)], written to cut off negative values: of three samples each gets the largest sample; a single negative value stays. *)
Theorem C114_clip_refuted : exists m st3 v3 st1 v1, prepare BNumpy ["x"; "y"] [SExpr (Call (Name "max") [Name "x"; Const "0"])] = Ok m /\
  z_compute m ["x"; "y"] "d" (z_state 3 (zs [-3; 5; 2]%Z) (zs [1; 2; 3]%Z)) = (st3, Ok v3) /\ has_values st3 "d" "function_node_result" [5; 5; 5]%Z /\
  z_compute m ["x"; "y"] "d" (z_state 1 (Atom (-3)%Z) (Atom 1%Z)) = (st1, Ok v1) /\ has_values st1 "d" "function_node_result" [-3]%Z.
Proof.
  do 5 eexists. split; [reflexivity|]. split; [reflexivity|]. split; [split; [reflexivity|]; eexists; split; [right; split; [discriminate|reflexivity]|reflexivity]|].
  split; [reflexivity|]. split; [reflexivity|]. eexists. split; [left; split; [reflexivity|]; eexists; split; reflexivity|reflexivity].
Qed.
(** With an array per sample (rows) and as many samples as entries, [x + y] adds to entry [j] of a row the value of sample [j]. *)
Theorem C114_rows_refuted : exists m st' v, prepare BNumpy ["x"; "y"] [SExpr (BinOp Add (Name "x") (Name "y"))] = Ok m /\
  z_compute m ["x"; "y"] "d" (z_state 2 (Arr [zs [1; 2]; zs [3; 4]]%Z) (zs [10; 20]%Z)) = (st', Ok v) /\ v = Arr [zs [11; 22]; zs [13; 24]]%Z.
Proof. do 3 eexists. split; [reflexivity|]. split; reflexivity. Qed.
