(** * Specification vocabulary: the monomers exchanged *)
From Verif Require Export MainSpec.
From Verif Require Export StrSpec StrModel.
Open Scope Z_scope.

(** the request in which monomer 1 is called monomer 2 and conversely *)
Definition exchanged (p : params) : params :=
  mkParams (log2 p) (log1 p) (logP p) (pun2 p) (pun1 p) (punP p) (spinP p) (spin2 p) (spin1 p) (orb_typeP p) (orb_type2 p) (orb_type1 p)
    (orb_numP p) (orb_num2 p) (orb_num1 p) (citation p) (counterPoise p).
