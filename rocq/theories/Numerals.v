(** Decimal rendering of counters in Python f-strings ([f"{n}"] for a non-negative int). *)
From Coq Require Import String Ascii List Bool Arith Lia Decimal DecimalString DecimalNat DecimalFacts.
Import ListNotations.
Open Scope string_scope.

Definition decimal (n : nat) : string := NilZero.string_of_uint (Nat.to_uint n).

(** Does a string contain a character? *)
Fixpoint has_char (c : ascii) (s : string) : bool :=
  match s with
  | EmptyString => false
  | String c' s' => if Ascii.eqb c c' then true else has_char c s'
  end.

Definition is_digit (c : ascii) : bool :=
  existsb (Ascii.eqb c) ["0"; "1"; "2"; "3"; "4"; "5"; "6"; "7"; "8"; "9"]%char.

Fixpoint all_digits (s : string) : bool :=
  match s with EmptyString => true | String c s' => is_digit c && all_digits s' end.

Lemma digits_uint : forall d, all_digits (NilEmpty.string_of_uint d) = true.
Proof. induction d; simpl; auto. Qed.

Lemma decimal_digits : forall n, all_digits (decimal n) = true.
Proof.
  intros. unfold decimal, NilZero.string_of_uint. destruct (Nat.to_uint n); try reflexivity;
    apply digits_uint.
Qed.

Lemma decimal_inj : forall m n, decimal m = decimal n -> m = n.
Proof.
  intros m n H. unfold decimal in H.
  assert (E : NilZero.uint_of_string (NilZero.string_of_uint (Nat.to_uint m)) =
              NilZero.uint_of_string (NilZero.string_of_uint (Nat.to_uint n))) by now rewrite H.
  assert (NN : forall k, Nat.to_uint k <> Nil).
  { intros k Hk. assert (G := DecimalNat.Unsigned.of_to k).
    assert (T := DecimalNat.Unsigned.to_of (Nat.to_uint k)). rewrite G in T. rewrite Hk in T.
    simpl in T. unfold unorm in T. simpl in T. discriminate. }
  rewrite !NilZero.usu in E by apply NN. inversion E as [E'].
  rewrite <- (DecimalNat.Unsigned.of_to m), <- (DecimalNat.Unsigned.of_to n). now rewrite E'.
Qed.

Lemma has_char_app : forall c a b, has_char c (a ++ b) = has_char c a || has_char c b.
Proof. induction a as [|x a IH]; simpl; auto. intros. destruct (Ascii.eqb c x); auto. Qed.

Lemma digits_no_char : forall c s, all_digits s = true -> is_digit c = false -> has_char c s = false.
Proof.
  induction s as [|x s IH]; simpl; auto. intros H Hc. apply andb_true_iff in H. destruct H as [H1 H2].
  destruct (Ascii.eqb c x) eqn:E; auto. apply Ascii.eqb_eq in E; subst. congruence.
Qed.

Lemma append_nil_r : forall s, (s ++ "")%string = s.
Proof. induction s; simpl; congruence. Qed.

Lemma append_assoc : forall a b c, ((a ++ b) ++ c = a ++ (b ++ c))%string.
Proof. induction a; simpl; intros; congruence. Qed.

(** The part before the first [c] is determined. *)
Lemma first_sep : forall c a b x y, has_char c a = false -> has_char c x = false ->
  (a ++ String c b = x ++ String c y)%string -> a = x /\ b = y.
Proof.
  induction a as [|k a IH]; intros b x y Ha Hx H; destruct x as [|l x]; simpl in *.
  - inversion H; auto.
  - inversion H; subst. rewrite Ascii.eqb_refl in Hx. discriminate.
  - inversion H; subst. rewrite Ascii.eqb_refl in Ha. discriminate.
  - inversion H; subst. destruct (Ascii.eqb c l); [discriminate|].
    destruct (IH b x y Ha Hx H2); subst; auto.
Qed.

(** The part after the last [c] is determined. *)
Lemma last_sep : forall c a b x y, has_char c b = false -> has_char c y = false ->
  (a ++ String c b = x ++ String c y)%string -> a = x /\ b = y.
Proof.
  induction a as [|k a IH]; intros b x y Hb Hy H; destruct x as [|l x]; simpl in *.
  - inversion H; auto.
  - inversion H; subst. rewrite has_char_app in Hb. simpl in Hb. rewrite Ascii.eqb_refl in Hb.
    rewrite orb_true_r in Hb. discriminate.
  - inversion H; subst. rewrite has_char_app in Hy. simpl in Hy. rewrite Ascii.eqb_refl in Hy.
    rewrite orb_true_r in Hy. discriminate.
  - inversion H; subst. destruct (IH b x y Hb Hy H2); subst; auto.
Qed.

Lemma decimal_no_underscore : forall n, has_char "_" (decimal n) = false.
Proof. intros. apply digits_no_char; [apply decimal_digits|reflexivity]. Qed.
Lemma decimal_no_equals : forall n, has_char "=" (decimal n) = false.
Proof. intros. apply digits_no_char; [apply decimal_digits|reflexivity]. Qed.
