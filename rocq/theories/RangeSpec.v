(** * Specification vocabulary: an order on the numbers of an exact arithmetic *)
From Verif Require Export QcSpec Exact.
From Verif Require Export ReaderModel MainSpec ContentSpec PhaseSpec LevelsSpec ElementSpec.
From Verif Require Export StrSpec StrModel.
Open Scope Z_scope.

(** [le] makes the field an ordered field *)
Record ordered {T} (A : arith T) (le : T -> T -> Prop) : Prop := {
  or_total : forall x y, le x y \/ le y x;
  or_antisym : forall x y, le x y -> le y x -> x = y;
  or_trans : forall x y z, le x y -> le y z -> le x z;
  or_add : forall x y z, le x y -> le (a_add A x z) (a_add A y z);
  or_mul : forall x y, le (a_zero A) x -> le (a_zero A) y -> le (a_zero A) (a_mul A x y) }.
(** all energies of the dimer's orbitals are between [lo] and [hi] *)
Definition energies_within (N : nums) (le : num N -> num N -> Prop) (d : data N) (lo hi : num N) : Prop :=
  forall k, 1 <= k <= count (coefP N d) -> le lo (entry N (enP N d) k) /\ le (entry N (enP N d) k) hi.
(** on the first [n] basis functions [w2] is [w1] or its negative *)
Definition same_up_to_sign {T} (A : arith T) (n : Z) (w1 w2 : Z -> T) : Prop :=
  (forall c, 1 <= c <= n -> w2 c = w1 c) \/ (forall c, 1 <= c <= n -> w2 c = a_sub A (a_zero A) (w1 c)).
