(** * Specification vocabulary: counterpoise calculations that make no use of the other monomer's basis functions *)
From Verif Require Export QcSpec.
From Verif Require Export ReaderModel MainSpec ContentSpec PhaseSpec LevelsSpec.
From Verif Require Export StrSpec StrModel.
Open Scope Z_scope.

Section Ghosts.
Context (N : nums) (A : arith (num N)).
Implicit Types (d : data N).
(** [d] are calculations of two monomers and of the dimer, [d'] calculations with counterpoise correction: monomer 1 with
    the atoms of monomer 2 as ghosts, and the reverse.  The atoms of both are those of monomer 1 followed by those of
    monomer 2.  Orbital [r1'] of monomer 1 is [r1] with zeros for the functions of the ghosts (which follow), orbital
    [r2'] of monomer 2 is [r2] with zeros for the functions of the ghosts (which precede).  The dimer is the same. *)
Record ghosts d d' (r1 r2 r1' r2' : Z) : Prop := {
  gh_at : at1 N d' = at1 N d ++ at2 N d /\ at2 N d' = at1 N d ++ at2 N d /\ atP N d' = atP N d /\ baP N d' = baP N d;
  gh_1 : forall c, 1 <= c <= size N d -> table N (coef1 N d') r1' c = if c <=? width N (coef1 N d) then table N (coef1 N d) r1 c else a_zero A;
  gh_2 : forall c, 1 <= c <= size N d -> table N (coef2 N d') r2' c = if c <=? width N (coef1 N d) then a_zero A else table N (coef2 N d) r2 (c - width N (coef1 N d));
  gh_P : count (coefP N d') = count (coefP N d) /\ (forall k, 1 <= k <= count (coefP N d) -> entry N (enP N d') k = entry N (enP N d) k) /\
         forall k c, 1 <= k <= count (coefP N d) -> 1 <= c <= size N d -> table N (coefP N d') k c = table N (coefP N d) k c;
  gh_S : size N d' = size N d /\ forall i j, 1 <= j <= i -> i <= size N d -> over N d' i j = over N d i j }.
End Ghosts.
