(** * Outcomes of C++ code and loops

    Every modelled function returns an [outcome].  Undefined behaviour of the
    C++ code is a distinct result, so that "returns [Ok]" is a statement that
    also excludes it. *)
From Coq Require Export ZArith List Bool Lia.
Export ListNotations.
Open Scope Z_scope.

(** The exception classes the code throws (<stdexcept>). *)
Inductive exn := InvalidArgument | RuntimeError | OutOfRange | BadAlloc.

(** The kinds of undefined behaviour that the model distinguishes. *)
Inductive ubkind :=
| OutOfBounds       (* access outside an allocation *)
| Uninitialised     (* use of an indeterminate double *)
| SignedOverflow    (* int arithmetic outside [INT_MIN, INT_MAX] *)
| BadIterator       (* dereference / advance of an invalid iterator *)
| UseAfterFree      (* access through a dangling pointer *)
| DoubleFree.

Inductive outcome (A : Type) :=
| Ok (a : A)            (* normal return *)
| Throw (e : exn)       (* a C++ exception leaves the function *)
| Exit (code : Z)       (* the process calls exit(code) *)
| Undef (u : ubkind)    (* undefined behaviour *)
| NoFuel.               (* the model's fuel ran out: not a program result *)
Arguments Ok {A} a.
Arguments Throw {A} e.
Arguments Exit {A} code.
Arguments Undef {A} u.
Arguments NoFuel {A}.

Definition bind {A B} (x : outcome A) (k : A -> outcome B) : outcome B :=
  match x with
  | Ok a => k a
  | Throw e => Throw e
  | Exit c => Exit c
  | Undef u => Undef u
  | NoFuel => NoFuel
  end.

Notation "x <- e ;; k" := (bind e (fun x => k))
  (at level 61, e at next level, right associativity).
Notation "e ;;; k" := (bind e (fun _ => k))
  (at level 61, right associativity).

Definition is_ok {A} (x : outcome A) : bool :=
  match x with Ok _ => true | _ => false end.

(** 32-bit [int]. *)
Definition INT_MAX : Z := 2147483647.
Definition INT_MIN : Z := -2147483648.
Definition is_int (z : Z) : Prop := INT_MIN <= z <= INT_MAX.
Definition is_intb (z : Z) : bool := (INT_MIN <=? z) && (z <=? INT_MAX).

Definition ichk (z : Z) : outcome Z :=
  if is_intb z then Ok z else Undef SignedOverflow.
Definition iadd (a b : Z) := ichk (a + b).
Definition isub (a b : Z) := ichk (a - b).
Definition imul (a b : Z) := ichk (a * b).

(** [for (i = lo; i <= hi; i++) s = body(i, s)]: structural in the number of
    rounds; the loop counter is a mathematical integer (a counter that stops at
    INT_MAX would overflow in C++: not modelled). *)
Fixpoint for_n {S} (n : nat) (i : Z) (body : Z -> S -> outcome S) (s : S)
  : outcome S :=
  match n with
  | O => Ok s
  | Datatypes.S n' => s' <- body i s ;; for_n n' (i + 1) body s'
  end.
Definition for_up {S} (lo hi : Z) (body : Z -> S -> outcome S) (s : S) :=
  for_n (Z.to_nat (hi - lo + 1)) lo body s.

(** [for (i = hi; i >= lo; i--)]. *)
Fixpoint for_dn {S} (n : nat) (i : Z) (body : Z -> S -> outcome S) (s : S)
  : outcome S :=
  match n with
  | O => Ok s
  | Datatypes.S n' => s' <- body i s ;; for_dn n' (i - 1) body s'
  end.
Definition for_down {S} (hi lo : Z) (body : Z -> S -> outcome S) (s : S) :=
  for_dn (Z.to_nat (hi - lo + 1)) hi body s.

(** Range-for over a container. *)
Fixpoint for_each {A S} (l : list A) (body : A -> S -> outcome S) (s : S)
  : outcome S :=
  match l with
  | [] => Ok s
  | a :: l' => s' <- body a s ;; for_each l' body s'
  end.

(** [std::vector<T>::at]. *)
Definition vat {A} (l : list A) (k : Z) : outcome A :=
  if k <? 0 then Throw OutOfRange
  else match nth_error l (Z.to_nat k) with
       | Some a => Ok a
       | None => Throw OutOfRange
       end.

(** Replace position [n] of a list. *)
Fixpoint upd {A} (l : list A) (n : nat) (a : A) : list A :=
  match l, n with
  | [], _ => []
  | _ :: l', O => a :: l'
  | x :: l', Datatypes.S n' => x :: upd l' n' a
  end.

(** [v.at(k) = a]. *)
Definition vat_set {A} (l : list A) (k : Z) (a : A) : outcome (list A) :=
  if (0 <=? k) && (k <? Z.of_nat (length l)) then Ok (upd l (Z.to_nat k) a)
  else Throw OutOfRange.

(** ** Facts *)

Lemma bind_ok {A B} (x : outcome A) (k : A -> outcome B) b :
  bind x k = Ok b -> exists a, x = Ok a /\ k a = Ok b.
Proof. destruct x; simpl; intros H; try discriminate. eauto. Qed.

Lemma bind_assoc {A B C} (x : outcome A) (f : A -> outcome B) (g : B -> outcome C) :
  bind (bind x f) g = bind x (fun a => bind (f a) g).
Proof. destruct x; reflexivity. Qed.

Lemma ichk_ok z : is_int z -> ichk z = Ok z.
Proof.
  unfold is_int, ichk, is_intb; intros [H1 H2].
  apply Z.leb_le in H1; apply Z.leb_le in H2; rewrite H1, H2; reflexivity.
Qed.

Lemma ichk_inv z y : ichk z = Ok y -> y = z /\ is_int z.
Proof.
  unfold ichk, is_int, is_intb.
  destruct (Z.leb_spec INT_MIN z); destruct (Z.leb_spec z INT_MAX);
    simpl; intros H1; inversion H1; subst; split; auto; lia.
Qed.

Lemma for_n_inv {S} (I : Z -> S -> Prop) body n : forall lo s,
  I lo s ->
  (forall i s, lo <= i < lo + Z.of_nat n -> I i s ->
     exists s', body i s = Ok s' /\ I (i + 1) s') ->
  exists s', for_n n lo body s = Ok s' /\ I (lo + Z.of_nat n) s'.
Proof.
  induction n as [|n IH]; intros lo s HI Hb; simpl for_n.
  - exists s; split; auto. replace (lo + Z.of_nat 0) with lo by lia; auto.
  - destruct (Hb lo s) as (s1 & E1 & I1); [lia|auto|].
    rewrite E1; cbn [bind].
    destruct (IH (lo + 1) s1 I1) as (s2 & E2 & I2).
    { intros i s' Hi HI'. apply Hb; auto; lia. }
    exists s2; split; auto.
    replace (lo + Z.of_nat (Datatypes.S n)) with (lo + 1 + Z.of_nat n) by lia; auto.
Qed.

Lemma for_up_inv {S} (I : Z -> S -> Prop) body lo hi s :
  lo <= hi + 1 ->
  I lo s ->
  (forall i s, lo <= i <= hi -> I i s ->
     exists s', body i s = Ok s' /\ I (i + 1) s') ->
  exists s', for_up lo hi body s = Ok s' /\ I (hi + 1) s'.
Proof.
  intros Hle HI Hb. unfold for_up.
  destruct (for_n_inv I body (Z.to_nat (hi - lo + 1)) lo s HI) as (s' & E & H).
  { intros i s0 Hi H0; apply Hb; auto; lia. }
  exists s'; split; auto.
  replace (hi + 1) with (lo + Z.of_nat (Z.to_nat (hi - lo + 1))) by lia; auto.
Qed.

Lemma for_up_empty {S} (body : Z -> S -> outcome S) lo hi s :
  hi < lo -> for_up lo hi body s = Ok s.
Proof.
  intros H; unfold for_up. replace (Z.to_nat (hi - lo + 1)) with O by lia. reflexivity.
Qed.

Lemma for_up_step {S} (body : Z -> S -> outcome S) lo hi s :
  lo <= hi -> for_up lo hi body s = (s' <- body lo s ;; for_up (lo + 1) hi body s').
Proof.
  intros H; unfold for_up.
  replace (Z.to_nat (hi - lo + 1)) with (Datatypes.S (Z.to_nat (hi - (lo + 1) + 1))) by lia.
  reflexivity.
Qed.

Lemma for_dn_inv {S} (I : Z -> S -> Prop) body n : forall hi s,
  I hi s ->
  (forall i s, hi - Z.of_nat n < i <= hi -> I i s ->
     exists s', body i s = Ok s' /\ I (i - 1) s') ->
  exists s', for_dn n hi body s = Ok s' /\ I (hi - Z.of_nat n) s'.
Proof.
  induction n as [|n IH]; intros hi s HI Hb; simpl for_dn.
  - exists s; split; auto. replace (hi - Z.of_nat 0) with hi by lia; auto.
  - destruct (Hb hi s) as (s1 & E1 & I1); [lia|auto|].
    rewrite E1; cbn [bind].
    destruct (IH (hi - 1) s1 I1) as (s2 & E2 & I2).
    { intros i s' Hi HI'. apply Hb; auto; lia. }
    exists s2; split; auto.
    replace (hi - Z.of_nat (Datatypes.S n)) with (hi - 1 - Z.of_nat n) by lia; auto.
Qed.

Lemma for_down_inv {S} (I : Z -> S -> Prop) body hi lo s :
  lo <= hi + 1 ->
  I hi s ->
  (forall i s, lo <= i <= hi -> I i s ->
     exists s', body i s = Ok s' /\ I (i - 1) s') ->
  exists s', for_down hi lo body s = Ok s' /\ I (lo - 1) s'.
Proof.
  intros Hle HI Hb. unfold for_down.
  destruct (for_dn_inv I body (Z.to_nat (hi - lo + 1)) hi s HI) as (s' & E & H).
  { intros i s0 Hi H0; apply Hb; auto; lia. }
  exists s'; split; auto.
  replace (lo - 1) with (hi - Z.of_nat (Z.to_nat (hi - lo + 1))) by lia; auto.
Qed.

Lemma for_n_ext {S} (b1 b2 : Z -> S -> outcome S) n : forall lo s,
  (forall i s, lo <= i < lo + Z.of_nat n -> b1 i s = b2 i s) ->
  for_n n lo b1 s = for_n n lo b2 s.
Proof.
  induction n as [|n IH]; intros lo s H; simpl; auto.
  rewrite H by lia. destruct (b2 lo s) as [s'| | | |]; simpl; auto.
  apply IH. intros i s0 Hi; apply H; lia.
Qed.

Lemma for_up_ext {S} (b1 b2 : Z -> S -> outcome S) lo hi s :
  (forall i s, lo <= i <= hi -> b1 i s = b2 i s) ->
  for_up lo hi b1 s = for_up lo hi b2 s.
Proof.
  intros H; unfold for_up; apply for_n_ext; intros i s0 Hi; apply H; lia.
Qed.

Lemma for_n_app {S} (b : Z -> S -> outcome S) n m : forall lo s,
  for_n (n + m) lo b s = (s' <- for_n n lo b s ;; for_n m (lo + Z.of_nat n) b s').
Proof.
  induction n as [|n IH]; intros lo s.
  - simpl Nat.add. cbn [for_n bind]. f_equal; lia.
  - cbn [Nat.add for_n]. destruct (b lo s) as [s'| | | |]; simpl bind; auto.
    rewrite IH. destruct (for_n n (lo + 1) b s') as [s2| | | |]; simpl; auto.
    f_equal; lia.
Qed.

Lemma for_up_split {S} (b : Z -> S -> outcome S) lo mid hi s :
  lo <= mid + 1 -> mid <= hi ->
  for_up lo hi b s = (s' <- for_up lo mid b s ;; for_up (mid + 1) hi b s').
Proof.
  intros H1 H2. unfold for_up.
  replace (Z.to_nat (hi - lo + 1))
    with (Z.to_nat (mid - lo + 1) + Z.to_nat (hi - (mid + 1) + 1))%nat by lia.
  rewrite for_n_app.
  replace (lo + Z.of_nat (Z.to_nat (mid - lo + 1))) with (mid + 1) by lia.
  reflexivity.
Qed.

Lemma length_upd {A} (l : list A) n a : length (upd l n a) = length l.
Proof. revert n; induction l as [|x l IH]; intros [|n]; simpl; auto. Qed.

Lemma nth_error_upd_eq {A} (l : list A) n a :
  (n < length l)%nat -> nth_error (upd l n a) n = Some a.
Proof.
  revert n; induction l as [|x l IH]; intros [|n] H; simpl in *; auto; try lia.
  apply IH; lia.
Qed.

Lemma nth_error_upd_ne {A} (l : list A) n k a :
  n <> k -> nth_error (upd l n a) k = nth_error l k.
Proof.
  revert n k; induction l as [|x l IH]; intros [|n] [|k] H; simpl; auto; try congruence.
Qed.

Lemma vat_ok {A} (l : list A) k a :
  0 <= k -> nth_error l (Z.to_nat k) = Some a -> vat l k = Ok a.
Proof.
  intros H E; unfold vat. destruct (Z.ltb_spec k 0); [lia|]. now rewrite E.
Qed.

Lemma vat_throws {A} (l : list A) k :
  k < 0 \/ Z.of_nat (length l) <= k -> vat l k = Throw OutOfRange.
Proof.
  intros H; unfold vat. destruct (Z.ltb_spec k 0); auto.
  assert (nth_error l (Z.to_nat k) = None) as ->; auto.
  apply nth_error_None; lia.
Qed.

Lemma nth_error_ext {A} (l l' : list A) :
  (forall n, nth_error l n = nth_error l' n) -> l = l'.
Proof.
  revert l'; induction l as [|x l IH]; intros [|y l'] H; auto.
  - specialize (H O); discriminate.
  - specialize (H O); discriminate.
  - f_equal.
    + specialize (H O); simpl in H; congruence.
    + apply IH; intros n; apply (H (S n)).
Qed.

Lemma for_each_ext {A S} (b1 b2 : A -> S -> outcome S) l : forall s,
  (forall a s, b1 a s = b2 a s) -> for_each l b1 s = for_each l b2 s.
Proof.
  induction l as [|a l IH]; intros s H; simpl; auto.
  rewrite H. destruct (b2 a s); simpl; auto.
Qed.
