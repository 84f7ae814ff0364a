(** * Specification vocabulary for the output of calc_J *)
From Verif Require Export MainSpec.
From Verif Require Export StrSpec StrModel.
Open Scope Z_scope.

(** the text of a list of lines *)
Definition screen (lines : list str) : str := concat (map (fun l => l ++ [nl]) lines).
(** what a request says: file names, spins, orbitals *)
Definition request (p : params) : list str * list str * list (str * Z) :=
  (names p, [spinP p; spin1 p; spin2 p], [(orb_type1 p, orb_num1 p); (orb_type2 p, orb_num2 p)]).

(** an orbital: HOMO, HOMO-2, LUMO+3 *)
Definition orbital_name (ty : str) (n : Z) : str :=
  ty ++ (match n with Z0 => [] | Zpos _ => $"+" ++ dec n | Zneg _ => dec n end).
(** the lines that repeat the request *)
Definition heading (version : str) (p : params) : list str :=
  [[]; $"Running calc_J VERSION " ++ version;
   $"log file for first monomer is:      " ++ log1 p; $"log file for second monomer is:     " ++ log2 p; $"log file for dimer is:              " ++ logP p;
   $"pun file for the first monomer is:  " ++ pun1 p; $"pun file for the second monomer is: " ++ pun2 p; $"pun file for the dimer is:          " ++ punP p;
   [];
   $"Dimer     Spin " ++ spinP p;
   $"Monomer 1 Spin " ++ spin1 p ++ $" Orbital " ++ orbital_name (orb_type1 p) (orb_num1 p);
   $"Monomer 2 Spin " ++ spin2 p ++ $" Orbital " ++ orbital_name (orb_type2 p) (orb_num2 p)].
(** the lines with the numbers; energies are converted from Hartree to eV with the factor [h];
    J_eff = (J_ab - 1/2 (e_b + e_a) S_ab) / (1 - S_ab^2) *)
Definition result_lines {T} (A : arith T) (pr : T -> str) (h J_ab e_a e_b S_ab : T) : list str :=
  let J := a_div A (a_sub A J_ab (a_mul A (a_mul A (a_div A (a_one A) (a_two A)) (a_add A e_b e_a)) S_ab)) (a_sub A (a_one A) (a_pow2 A S_ab)) in
  [$"J_ab  " ++ pr (a_mul A J_ab h) ++ $" eV"; $"e_a   " ++ pr (a_mul A e_a h) ++ $" eV"; $"e_b   " ++ pr (a_mul A e_b h) ++ $" eV";
   $"S_ab  " ++ pr S_ab; $"J_eff " ++ pr (a_mul A J h) ++ $" eV"].
(** printed on standard error if the order of the basis functions could not be checked *)
Definition order_warning : str :=
  $"WARNING unable to automatically line up basis functions of monomers with dimers, you better make sure they correctly line up or run the calculations again with the correct flag pop=full".
