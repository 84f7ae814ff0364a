(** * Specification vocabulary: two calculations with the same content *)
From Verif Require Export MainSpec.
From Verif Require Export StrSpec StrModel.
Open Scope Z_scope.

Section Content.
Context (N : nums).
Implicit Types (d : data N).
(** the coefficients of orbital [r] of a file and of orbital [r'] of another *)
Definition same_orbital (rows rows' : list (list (num N))) (r r' : Z) : Prop :=
  width N rows' = width N rows /\ forall c, 1 <= c <= width N rows -> table N rows' r' c = table N rows r c.
(** all that the value is made of: the requested orbital of each monomer (with
    counterpoise correction: all orbitals of monomer 2), the orbitals and
    energies of the dimer, the lower triangle of its overlap matrix, the atoms
    and their numbers of basis functions.  Energies, occupations and the other
    orbitals of the monomers are free. *)
Record same_content (cp : bool) d d' (r1 r2 r1' r2' : Z) : Prop := {
  sc_1 : same_orbital (coef1 N d) (coef1 N d') r1 r1';
  sc_2 : if cp then coef2 N d' = coef2 N d /\ r2' = r2 else same_orbital (coef2 N d) (coef2 N d') r2 r2';
  sc_P : coefP N d' = coefP N d /\ enP N d' = enP N d;
  sc_S : size N d' = size N d /\ forall i j, 1 <= j <= i -> i <= size N d -> over N d' i j = over N d i j;
  sc_at : at1 N d' = at1 N d /\ at2 N d' = at2 N d /\ atP N d' = atP N d;
  sc_ba : ba1 N d' = ba1 N d /\ ba2 N d' = ba2 N d /\ baP N d' = baP N d }.
End Content.
