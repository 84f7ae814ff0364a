(** * Specification vocabulary: the atoms of a calculation listed in another order *)
From Verif Require Export MainSpec.
From Verif Require Export StrSpec StrModel.
Open Scope Z_scope.

Section Relist.
Context (N : nums).
Implicit Types (d : data N).
(** position i of the new list holds atom s_i of the old one *)
Definition points_relisted (s : list Z) (old new : list (num N * num N * num N)) : Prop :=
  count new = count old /\ forall i k, 1 <= i -> nth_error s (Z.to_nat (i - 1)) = Some k -> nth_error new (Z.to_nat (i - 1)) = nth_error old (Z.to_nat (k - 1)).
(** the same calculation of monomer 1, of monomer 2 *)
Definition same_1 d d' : Prop := coef1 N d' = coef1 N d /\ en1 N d' = en1 N d /\ occ1 N d' = occ1 N d /\ at1 N d' = at1 N d /\ ba1 N d' = ba1 N d.
Definition same_2 d d' : Prop := coef2 N d' = coef2 N d /\ en2 N d' = en2 N d /\ occ2 N d' = occ2 N d /\ at2 N d' = at2 N d /\ ba2 N d' = ba2 N d.
(** the dimer, its atoms (with their basis functions) listed in the order [s]; the same orbitals and energies *)
Record dimer_relisted (s : list Z) d d' : Prop := {
  rP_order : is_order (count (baP N d)) s;
  rP_basis : baP N d' = reordered (baP N d) s;
  rP_atoms : points_relisted s (atP N d) (atP N d');
  rP_size : size N d' = size N d;
  rP_energies : enP N d' = enP N d;
  rP_coef : blocks_moved (baP N d) s (table N (coefP N d)) (table N (coefP N d'));
  rP_overlap : blocks_moved2 (baP N d) s (symmetric N (over N d)) (symmetric N (over N d')) }.
(** monomer 2 in the same way *)
Record second_relisted (s : list Z) d d' : Prop := {
  r2_order : is_order (count (ba2 N d)) s;
  r2_basis : ba2 N d' = reordered (ba2 N d) s;
  r2_atoms : points_relisted s (at2 N d) (at2 N d');
  r2_energies : en2 N d' = en2 N d /\ occ2 N d' = occ2 N d;
  r2_coef : blocks_moved (ba2 N d) s (table N (coef2 N d)) (table N (coef2 N d')) }.
End Relist.
