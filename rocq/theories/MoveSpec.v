(** * Specification vocabulary: the same calculations with the atoms at other positions *)
From Verif Require Export QcSpec Exact.
From Verif Require Export ReaderModel MainSpec ContentSpec PhaseSpec LevelsSpec.
From Verif Require Export StrSpec StrModel.
Open Scope Z_scope.

Section Moved.
Context (N : nums) (lab : num N -> str).
(** every atom of [from'] is found among the atoms [to'] where that of [from] was found among [to] *)
Definition still_found (n : Z) (from to from' to' : list (num N * num N * num N)) : Prop :=
  count from' = count from /\ count to' = count to /\ forall ord, count ord = count from -> finds lab 3 n (position N from) (position N to) ord -> finds lab 3 n (position N from') (position N to') ord.
(** [d'] are the calculations [d] but for the positions of the atoms (and what the value is not made of) *)
Record atoms_moved (cp : bool) (d d' : data N) (r1 r2 r1' r2' : Z) : Prop := {
  am_e : forall k, 1 <= k <= count (coefP N d) -> entry N (enP N d') k = entry N (enP N d) k;
  am_P : count (coefP N d') = count (coefP N d) /\ forall k c, 1 <= k <= count (coefP N d) -> 1 <= c <= size N d -> table N (coefP N d') k c = table N (coefP N d) k c;
  am_1 : same_orbital N (coef1 N d) (coef1 N d') r1 r1';
  am_2 : same_orbital N (coef2 N d) (coef2 N d') r2 r2';
  am_S : size N d' = size N d /\ forall i j, 1 <= j <= i -> i <= size N d -> over N d' i j = over N d i j;
  am_ba : ba1 N d' = ba1 N d /\ ba2 N d' = ba2 N d /\ baP N d' = baP N d;
  am_1P : still_found (count (baP N d)) (at1 N d) (atP N d) (at1 N d') (atP N d');
  am_2P : if cp then still_found (count (baP N d)) (at1 N d) (at2 N d) (at1 N d') (at2 N d') else still_found (count (baP N d)) (at2 N d) (atP N d) (at2 N d') (atP N d') }.
End Moved.
