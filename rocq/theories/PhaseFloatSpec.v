(** * Specification vocabulary: doubles up to their sign *)
From Coq Require Import Reals.
From Flocq Require Import Core IEEE754.BinarySingleNaN.
From Verif Require Export FloatModel.
Local Open Scope R_scope.

(** the two zeros of binary64 *)
Definition is_zero (x : double) : Prop := is_finite x = true /\ B2R x = 0.
(** [y] is [x] (s = false) or [-x] (s = true); the sign of a zero is not compared *)
Definition same_up_to_sign (s : bool) (x y : double) : Prop := y = (if s then Bopp x else x) \/ (is_zero x /\ is_zero y).
(** std::pow(x, 2.0) does not depend on the sign of [x] *)
Definition even (pow2 : double -> double) : Prop := forall x, pow2 (Bopp x) = pow2 x.
