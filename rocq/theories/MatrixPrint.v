(** * operator<< of Matrix (matrix.cpp:178-202) *)
From Verif Require Export MatrixModel StrBase.

Section Print.
Context {T : Type}.
(** [ostream << double] with default formatting. *)
Variable show : T -> str.

(** matrix.cpp:178-202.  The text appended to [out]; line 196 calls
    [get_elem(i,j)], which reads shelf 1. *)
Definition print (m : mat T) : outcome str :=
  for_up 1 (shel m) (fun k out =>
    let out := out ++ [nl] ++ $"Shelf " ++ dec k ++ [nl; tab] in
    out <- for_up 1 (cols m) (fun j out => Ok (out ++ $"Col " ++ dec j ++ [tab])) out ;;
    let out := out ++ [nl] in
    for_up 1 (rows m) (fun i out =>
      let out := out ++ $"Row " ++ dec i ++ [tab] in
      out <- for_up 1 (cols m) (fun j out =>
               v <- get_elem2 m i j ;; Ok (out ++ show v ++ [tab])) out ;;
      Ok (out ++ [nl])) out)
    ($"Matrix Attributes" ++ [nl] ++ $"rows " ++ dec (rows m) ++ [nl] ++ $"cols " ++ dec (cols m)
      ++ [nl] ++ $"shel " ++ dec (shel m)).
End Print.
