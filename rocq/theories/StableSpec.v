(** * Specification vocabulary: the same calculations with any other energies of the dimer's orbitals *)
From Verif Require Export QcSpec Exact.
From Verif Require Export ReaderModel MainSpec ContentSpec PhaseSpec LevelsSpec ElementSpec RangeSpec.
From Verif Require Export StrSpec StrModel.
Open Scope Z_scope.

Section Stable.
Context (N : nums).
Implicit Types (d : data N).
(** [d'] is [d] but for the energies of the dimer's orbitals (and what the value is not made of) *)
Record relevelled d d' (r1 r2 r1' r2' : Z) : Prop := {
  rl_P : count (coefP N d') = count (coefP N d) /\ forall k c, 1 <= k <= count (coefP N d) -> 1 <= c <= size N d -> table N (coefP N d') k c = table N (coefP N d) k c;
  rl_1 : same_orbital N (coef1 N d) (coef1 N d') r1 r1';
  rl_2 : same_orbital N (coef2 N d) (coef2 N d') r2 r2';
  rl_S : size N d' = size N d /\ forall i j, 1 <= j <= i -> i <= size N d -> over N d' i j = over N d i j;
  rl_at : at1 N d' = at1 N d /\ at2 N d' = at2 N d /\ atP N d' = atP N d;
  rl_ba : ba1 N d' = ba1 N d /\ ba2 N d' = ba2 N d /\ baP N d' = baP N d }.
End Stable.
Section Close.
Context {T : Type} (A : arith T) (le : T -> T -> Prop).
(** |x - y| <= c *)
Definition within (c x y : T) : Prop := le (a_sub A x y) c /\ le (a_sub A y x) c.
End Close.
