(** * Specification of the transfer integral in exact arithmetic *)
From Verif Require Export QcSpec Exact.
Open Scope Z_scope.

Section Spec.
Context {T : Type}.
Variable A : arith T.
Notation "0" := (a_zero A).
Notation "1" := (a_one A).
Infix "+" := (a_add A).
Infix "*" := (a_mul A).
Infix "-" := (a_sub A).
Infix "/" := (a_div A).
Notation Sum := (sum A).
Implicit Types (gA gB e : Z -> T).

(** The formula of the method, in plain sums over the K dimer orbitals. *)
Definition dot (K : nat) (u v : Z -> T) : T := Sum K (fun k => u k * v k).
Definition J_formula (K : nat) e gA gB : T :=
  (Sum K (fun k => e k * (gA k * gB k))
     - (Sum K (fun k => e k * (gA k * gA k)) + Sum K (fun k => e k * (gB k * gB k))) / (1 + 1) * dot K gA gB)
  / (1 - dot K gA gB * dot K gA gB).

(** <z| S |P_k> *)
Definition overlap_with (N : nat) (S P : Z -> Z -> T) (z : Z -> T) (k : Z) : T :=
  Sum N (fun l => Sum N (fun m => z l * S l m * P k m)).

(** what calcJ computes for rows r1, r2, in exact arithmetic *)
Definition J_exact_value (cp : bool) (n1 N K : Z) (a b fP fS : Z -> Z -> T) (e : Z -> T) (r1 r2 : Z) : T :=
  J_formula (Z.to_nat K) e
    (overlap_with (Z.to_nat N) fS fP (if cp then a r1 else pad_after A n1 (a r1)))
    (overlap_with (Z.to_nat N) fS fP (if cp then b r2 else pad_before A n1 (b r2))).

(** the orbital [z] is normalised in the dimer orbitals: sum of its squared projections is 1 *)
Definition complete (N K : Z) (fS fP : Z -> Z -> T) (z : Z -> T) : Prop :=
  Sum (Z.to_nat K) (fun k => overlap_with (Z.to_nat N) fS fP z k * overlap_with (Z.to_nat N) fS fP z k) = 1.
End Spec.

(** basis function [c] of the complex with the monomers listed in the other order:
    first the n2 of monomer 2, then the n1 of monomer 1 *)
Definition rot (n1 n2 c : Z) : Z := (if c <=? n2 then n1 + c else c - n2).
