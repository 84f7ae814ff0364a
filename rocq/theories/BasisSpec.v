(** * Specification vocabulary: the same orbitals in other basis functions *)
From Verif Require Export QcSpec Exact.
From Verif Require Export ReaderModel MainSpec ContentSpec PhaseSpec LevelsSpec ElementSpec.
From Verif Require Export StrSpec StrModel.
Open Scope Z_scope.

Section Basis.
Context (N : nums) (A : arith (num N)).
(** new basis function j is sum_i B i j (old basis function i): coefficients [x'] with respect to the new ones are
    coefficients [x] with respect to the old ones *)
Definition in_old (n n' : Z) (B : Z -> Z -> num N) (x' x : Z -> num N) : Prop :=
  forall i, 1 <= i <= n -> x i = sum A (Z.to_nat n') (fun j => a_mul A (B i j) (x' j)).
(** [d'] are the calculations [d] in the new basis functions: the same overlaps, the same energies and orbitals of the
    dimer; [w1'] and [w2'] are the orbitals [w1] and [w2] of the monomers. *)
Record rebased (B : Z -> Z -> num N) (d d' : data N) (w1 w2 w1' w2' : Z -> num N) : Prop := {
  rb_S : forall i j, 1 <= i <= size N d' -> 1 <= j <= size N d' ->
    symmetric N (over N d') i j = element A (size N d) (symmetric N (over N d)) (fun a => B a i) (fun b => B b j);
  rb_e : count (coefP N d') = count (coefP N d) /\ forall k, 1 <= k <= count (coefP N d) -> entry N (enP N d') k = entry N (enP N d) k;
  rb_P : forall k, 1 <= k <= count (coefP N d) -> in_old (size N d) (size N d') B (table N (coefP N d') k) (table N (coefP N d) k);
  rb_1 : in_old (size N d) (size N d') B w1' w1;
  rb_2 : in_old (size N d) (size N d') B w2' w2 }.
End Basis.
