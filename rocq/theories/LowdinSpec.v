(** * Specification vocabulary: orbitals made of the two requested orbitals *)
From Verif Require Export QcSpec Exact.
From Verif Require Export ReaderModel MainSpec ContentSpec PhaseSpec LevelsSpec ElementSpec.
From Verif Require Export StrSpec StrModel.
Open Scope Z_scope.

Section Blends.
Context {T : Type} (A : arith T).
(** x w1 + y w2 *)
Definition blend (x y : T) (w1 w2 : Z -> T) (i : Z) : T := a_add A (a_mul A x (w1 i)) (a_mul A y (w2 i)).
(** orthogonal and normalised in the basis with overlap [S] *)
Definition orthonormal (n : Z) (S : Z -> Z -> T) (v1 v2 : Z -> T) : Prop :=
  element A n S v1 v1 = a_one A /\ element A n S v2 v2 = a_one A /\ element A n S v1 v2 = a_zero A.
(** [v1] and [v2] are the symmetrically orthogonalised (Loewdin) [w1] and [w2]: made of them by a symmetric matrix of
    non-zero trace (S^(-1/2) is the positive definite one), orthogonal and normalised. *)
Definition symmetrically_orthogonalised (n : Z) (S : Z -> Z -> T) (w1 w2 v1 v2 : Z -> T) : Prop :=
  exists x y z, v1 = blend x y w1 w2 /\ v2 = blend y z w1 w2 /\ a_add A x z <> a_zero A /\ orthonormal n S v1 v2.
(** [e] is an energy of the two coupled orbitals [w1] and [w2]: F u = e S u within their space, for some u that is
    not zero *)
Definition coupled_energy (n : Z) (F S : Z -> Z -> T) (w1 w2 : Z -> T) (e : T) : Prop :=
  exists x y, ~ (x = a_zero A /\ y = a_zero A) /\
    element A n F w1 (blend x y w1 w2) = a_mul A e (element A n S w1 (blend x y w1 w2)) /\
    element A n F w2 (blend x y w1 w2) = a_mul A e (element A n S w2 (blend x y w1 w2)).
End Blends.
