(** * Exact arithmetic: sums over a field

    [exact_arith A opp inv]: the operations of [A] are those of a field and the
    constants mean what they say.  Instance: canonical rationals [Qc]. *)
From Coq Require Export Field Ring.
From Coq Require Import QArith Qcanon.
Open Scope Z_scope.
From Verif Require Export Arith MatrixOps2.

Record exact_arith {T} (A : arith T) (opp inv : T -> T) : Prop := {
  ea_field : field_theory (a_zero A) (a_one A) (a_add A) (a_mul A) (a_sub A) opp (a_div A) inv eq;
  ea_two : a_two A = a_add A (a_one A) (a_one A);
  ea_pow2 : forall x, a_pow2 A x = a_mul A x x
}.

(** The rationals as an instance. *)
Definition qc_arith : arith Qc :=
  mkArith Qc (Q2Qc (0 # 1)) (Q2Qc (1 # 1)) (Q2Qc (2 # 1)) Qcplus Qcminus Qcmult Qcdiv (fun x => Qcmult x x).
Lemma qc_exact : exact_arith qc_arith Qcopp Qcinv.
Proof.
  constructor; simpl.
  - exact Qcft.
  - apply Qc_is_canon. reflexivity.
  - reflexivity.
Qed.

Section Sums.
Context {T : Type}.
Variable A : arith T.
Variables opp inv : T -> T.
Hypothesis HA : exact_arith A opp inv.

Let FT := ea_field A opp inv HA.
Add Field TF : FT.

Notation "0" := (a_zero A).
Notation "1" := (a_one A).
Infix "+" := (a_add A).
Infix "*" := (a_mul A).
Infix "-" := (a_sub A).

(** sum of u(1..n) *)
Fixpoint sum (n : nat) (u : Z -> T) : T :=
  match n with O => 0 | S n' => sum n' u + u (Z.of_nat n) end.

Lemma accum_sum n u v : accum A n u v = sum n (fun k => u k * v k).
Proof. induction n as [|n IH]; cbn [accum sum]; [auto|]. rewrite IH. reflexivity. Qed.

Lemma sum_ext n u v : (forall k, (1 <= k <= Z.of_nat n)%Z -> u k = v k) -> sum n u = sum n v.
Proof.
  induction n as [|n IH]; intros H; cbn [sum]; auto.
  rewrite IH by (intros; apply H; lia). rewrite H by lia. reflexivity.
Qed.

Lemma sum_scale_l n c u : sum n (fun k => c * u k) = c * sum n u.
Proof. induction n as [|n IH]; cbn [sum]; [ring|]. rewrite IH. ring. Qed.
Lemma sum_scale_r n c u : sum n (fun k => u k * c) = sum n u * c.
Proof. induction n as [|n IH]; cbn [sum]; [ring|]. rewrite IH. ring. Qed.
Lemma sum_add n u v : sum n (fun k => u k + v k) = sum n u + sum n v.
Proof. induction n as [|n IH]; cbn [sum]; [ring|]. rewrite IH. ring. Qed.
Lemma sum_zero n : sum n (fun _ => 0) = 0.
Proof. induction n as [|n IH]; cbn [sum]; [auto|]. rewrite IH. ring. Qed.
Lemma sum_swap n p (u : Z -> Z -> T) :
  sum n (fun i => sum p (fun j => u i j)) = sum p (fun j => sum n (fun i => u i j)).
Proof.
  induction n as [|n IH]; cbn [sum].
  - symmetry. apply sum_zero.
  - rewrite IH. rewrite sum_add. reflexivity.
Qed.
Lemma sum_app n p u : sum (n + p) u = sum n u + sum p (fun k => u (Z.of_nat n + k)%Z).
Proof.
  induction p as [|p IH].
  - rewrite Nat.add_0_r. cbn [sum]. ring.
  - rewrite Nat.add_succ_r. cbn [sum]. rewrite IH.
    replace (Z.of_nat n + Z.of_nat (S p))%Z with (Z.of_nat (S (n + p))) by lia. ring.
Qed.

(** a sum with at most one non-zero term *)
Lemma sum_single n (u : Z -> T) k0 : (1 <= k0 <= Z.of_nat n)%Z ->
  (forall k, (1 <= k <= Z.of_nat n)%Z -> k <> k0 -> u k = 0) -> sum n u = u k0.
Proof.
  induction n as [|n IH]; intros Hk H; [lia|]. cbn [sum].
  destruct (Z.eq_dec k0 (Z.of_nat (S n))) as [->|Hne].
  - assert (E : sum n u = 0).
    { rewrite (sum_ext n u (fun _ => 0)), sum_zero; auto. intros k Hk'. apply H; lia. }
    rewrite E. ring.
  - rewrite IH; [|lia|intros; apply H; lia]. rewrite (H (Z.of_nat (S n))) by lia. ring.
Qed.

(** Associativity and transposition of the accumulated product. *)
Lemma accum_assoc n p (a : Z -> T) (b : Z -> Z -> T) (c : Z -> T) :
  accum A p (fun l => accum A n a (fun k => b k l)) c =
  accum A n a (fun k => accum A p (fun l => b k l) c).
Proof.
  rewrite !accum_sum.
  rewrite (sum_ext p _ (fun l => sum n (fun k => a k * b k l * c l))).
  2:{ intros l _. rewrite accum_sum, <- sum_scale_r. reflexivity. }
  rewrite sum_swap. apply sum_ext. intros k _. rewrite accum_sum, <- sum_scale_l.
  apply sum_ext. intros l _. ring.
Qed.

Lemma accum_comm n u v : accum A n u v = accum A n v u.
Proof. rewrite !accum_sum. apply sum_ext. intros; ring. Qed.
End Sums.
