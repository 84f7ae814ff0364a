(** * Specification vocabulary: a symmetry of the dimer *)
From Verif Require Export QcSpec Exact.
From Verif Require Export ReaderModel MainSpec ContentSpec PhaseSpec LevelsSpec ElementSpec.
From Verif Require Export StrSpec StrModel.
Open Scope Z_scope.

Section Symmetry.
Context {T : Type} (A : arith T).
(** the matrix [M] multiplies the orbital [x] by [s] (1: it is even, -1: it is odd) *)
Definition multiplies (n : Z) (M : Z -> Z -> T) (s : T) (x : Z -> T) : Prop :=
  forall i, 1 <= i <= n -> sum A (Z.to_nat n) (fun j => a_mul A (M i j) (x j)) = a_mul A s (x i).
(** [M], what a symmetry operation (a reflection, say) does to the basis functions, leaves their overlaps as they are:
    M^T S M = S.  It multiplies every orbital of the dimer by a number, the orbital [w1] of monomer 1 by [a] and the
    orbital [w2] of monomer 2 by [b]. *)
Record symmetry_of (n K : Z) (M S P : Z -> Z -> T) (a b : T) (w1 w2 : Z -> T) : Prop := {
  sy_S : forall i j, 1 <= i <= n -> 1 <= j <= n -> element A n S (fun x => M x i) (fun y => M y j) = S i j;
  sy_P : forall k, 1 <= k <= K -> exists s, multiplies n M s (P k);
  sy_1 : multiplies n M a w1;
  sy_2 : multiplies n M b w2 }.
End Symmetry.
