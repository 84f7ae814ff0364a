(** * Specification vocabulary: combinations of the dimer's orbitals *)
From Verif Require Export QcSpec Exact.
From Verif Require Export ReaderModel MainSpec ContentSpec PhaseSpec.
From Verif Require Export StrSpec StrModel.
Open Scope Z_scope.

Section Mix.
Context (N : nums) (A : arith (num N)).
Implicit Types (d : data N).
(** The calculations [d'] are [d] with other orbitals of the dimer: orbital k of the new list is
    sum_m U(k,m) (orbital m of the old list); the columns of U are orthonormal, and U combines
    orbitals of equal energies only.  All else that the value is made of is the same. *)
Record combined (U : Z -> Z -> num N) d d' (r1 r2 r1' r2' : Z) : Prop := {
  mx_orbitals : forall k c, 1 <= k <= count (coefP N d') -> 1 <= c <= size N d ->
    table N (coefP N d') k c = sum A (length (coefP N d)) (fun m => a_mul A (U k m) (table N (coefP N d) m c));
  mx_orthonormal : forall m n, 1 <= m <= count (coefP N d) -> 1 <= n <= count (coefP N d) ->
    sum A (length (coefP N d')) (fun k => a_mul A (U k m) (U k n)) = if m =? n then a_one A else a_zero A;
  mx_energies : forall k m, 1 <= k <= count (coefP N d') -> 1 <= m <= count (coefP N d) ->
    a_mul A (U k m) (entry N (enP N d') k) = a_mul A (U k m) (entry N (enP N d) m);
  mx_1 : same_orbital N (coef1 N d) (coef1 N d') r1 r1';
  mx_2 : same_orbital N (coef2 N d) (coef2 N d') r2 r2';
  mx_S : size N d' = size N d /\ forall i j, 1 <= j <= i -> i <= size N d -> over N d' i j = over N d i j;
  mx_at : at1 N d' = at1 N d /\ at2 N d' = at2 N d /\ atP N d' = atP N d;
  mx_ba : ba1 N d' = ba1 N d /\ ba2 N d' = ba2 N d /\ baP N d' = baP N d }.
End Mix.
