(** * Strings (std::string as a list of characters) and decimal printing *)
From Coq Require Export Ascii.
From Coq Require String.
Export (notations) String.
Export String(list_ascii_of_string).
From Verif Require Export Outcome.
Export List ListNotations.
Open Scope Z_scope.
Open Scope list_scope.

Definition str := list ascii.

(** Literals: [$"text"]. *)
Notation "$ x" := (list_ascii_of_string x%string) (at level 0, x at level 0, format "$ x").


Definition ceqb : ascii -> ascii -> bool := Ascii.eqb.

Fixpoint str_eqb (a b : str) : bool :=
  match a, b with
  | [], [] => true
  | x :: a', y :: b' => Ascii.eqb x y && str_eqb a' b'
  | _, _ => false
  end.

Lemma str_eqb_eq a b : str_eqb a b = true <-> a = b.
Proof.
  revert b; induction a as [|x a IH]; intros [|y b]; simpl; split; intros H; try discriminate; auto.
  - apply andb_prop in H as [H1 H2]. apply Ascii.eqb_eq in H1. apply IH in H2. congruence.
  - inversion H; subst. rewrite Ascii.eqb_refl. simpl. apply IH; auto.
Qed.
Lemma str_eqb_refl a : str_eqb a a = true.
Proof. apply str_eqb_eq; auto. Qed.
Lemma str_eqb_neq a b : str_eqb a b = false <-> a <> b.
Proof.
  destruct (str_eqb a b) eqn:E.
  - apply str_eqb_eq in E. split; [discriminate|]. congruence.
  - split; auto. intros _ ->. rewrite str_eqb_refl in E. discriminate.
Qed.
Lemma str_eqb_spec a b : reflect (a = b) (str_eqb a b).
Proof.
  destruct (str_eqb a b) eqn:E; constructor; [apply str_eqb_eq|apply str_eqb_neq]; auto.
Qed.
Definition str_dec (a b : str) : {a = b} + {a <> b} := list_eq_dec ascii_dec a b.

(** Decimal digit of a number 0..9. *)
Definition digit (d : Z) : ascii := ascii_of_nat (48 + Z.to_nat d).

(** [std::to_string] / [operator<<] of a non-negative integer: most significant
    digit first; the fuel (number of binary digits) always suffices. *)
Fixpoint dec_loop (fuel : nat) (z : Z) (acc : str) : str :=
  match fuel with
  | O => acc
  | S n => if z <? 10 then digit z :: acc else dec_loop n (z / 10) (digit (z mod 10) :: acc)
  end.
Definition dec_nonneg (z : Z) : str := dec_loop (S (Z.to_nat (Z.log2 z))) z [].
Definition dec (z : Z) : str :=
  if z <? 0 then "-"%char :: dec_nonneg (- z) else dec_nonneg z.

Example dec_ex : dec 1204 = $"1204" /\ dec (-37) = $"-37" /\ dec 0 = $"0".
Proof. repeat split. Qed.

(** Characters. *)
Definition code (c : ascii) : Z := Z.of_nat (nat_of_ascii c).
Definition is_digit (c : ascii) : bool := (48 <=? code c) && (code c <=? 57).
Definition digit_val (c : ascii) : Z := code c - 48.
(** isspace in the C locale: space, \t \n \v \f \r. *)
Definition is_space (c : ascii) : bool := (code c =? 32) || ((9 <=? code c) && (code c <=? 13)).
Definition nl : ascii := "010"%char.
Definition tab : ascii := "009"%char.
