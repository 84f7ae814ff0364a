(** * Specification vocabulary: the same calculations with other orbitals of the monomers *)
From Verif Require Export QcSpec.
From Verif Require Export ReaderModel MainSpec ContentSpec PhaseSpec LevelsSpec.
From Verif Require Export StrSpec StrModel.
Open Scope Z_scope.

Section Super.
Context (N : nums).
Implicit Types (d : data N).
(** [d'] is [d] but for the coefficients of the orbitals of the monomers (and what the value is not made of) *)
Record other_orbitals d d' : Prop := {
  oo_P : count (coefP N d') = count (coefP N d) /\ (forall k, 1 <= k <= count (coefP N d) -> entry N (enP N d') k = entry N (enP N d) k) /\
         forall k c, 1 <= k <= count (coefP N d) -> 1 <= c <= size N d -> table N (coefP N d') k c = table N (coefP N d) k c;
  oo_w : width N (coef1 N d') = width N (coef1 N d) /\ width N (coef2 N d') = width N (coef2 N d);
  oo_S : size N d' = size N d /\ forall i j, 1 <= j <= i -> i <= size N d -> over N d' i j = over N d i j;
  oo_at : at1 N d' = at1 N d /\ at2 N d' = at2 N d /\ atP N d' = atP N d;
  oo_ba : ba1 N d' = ba1 N d /\ ba2 N d' = ba2 N d /\ baP N d' = baP N d }.
(** orbital [r''] of [rows''] is a times orbital [r] of [rows] plus b times orbital [r'] of [rows'] *)
Definition combined (A : arith (num N)) (a b : num N) (rows rows' rows'' : list (list (num N))) (r r' r'' : Z) : Prop :=
  forall c, 1 <= c <= width N rows -> table N rows'' r'' c = a_add A (a_mul A a (table N rows r c)) (a_mul A b (table N rows' r' c)).
End Super.
