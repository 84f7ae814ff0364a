(** * Arguments of type double over IEEE binary64 *)
From Coq Require Import Reals.
From Flocq Require Import Core IEEE754.BinarySingleNaN.
From Verif Require Export ScanSpec ScanModel.
From Verif Require Export ParserSpec ArgsSpec.
Open Scope Z_scope.

(** numeric_limits<double>::max() and lowest(): (2^53 - 1) * 2^971 and its opposite *)
Definition dbl_max : double := @B754_finite 53 1024 false 9007199254740991 971 eq_refl.
Definition dbl_lowest : double := @B754_finite 53 1024 true 9007199254740991 971 eq_refl.
(** the machine: binary64 with the operator < of C++ (false when an operand is NaN) and std::stod;
    the text of a double (used in error messages only) and the file system are arbitrary *)
Definition machine_env (show : double -> str) (disk : str -> bool) : env :=
  {| D := double; d_lt := @Bltb 53 1024; d_lowest := dbl_lowest; d_max := dbl_max; d_text := show; e_stod := dstod; file_exists := disk |}.
Definition not_nan (x : double) : Prop := x <> B754_nan.
(** the order of the doubles that are not NaN: the real value, with both infinities outside *)
Definition dle (x y : double) : Prop :=
  match x, y with
  | B754_nan, _ | _, B754_nan => False
  | B754_infinity true, _ | _, B754_infinity false => True
  | B754_infinity false, _ | _, B754_infinity true => False
  | _, _ => (B2R x <= B2R y)%R
  end.
