(** * The floating point operations the code uses, as a record

    The code computes with [double].  All models are generic in the carrier and
    in these operations.  Theorems that assume no law about them hold in
    particular for IEEE binary64 (see FloatModel.v); theorems about exact
    arithmetic assume field laws in their statement. *)
From Verif Require Export Outcome.

Record arith (T : Type) := mkArith {
  a_zero : T;                (* literal 0 *)
  a_one : T;                 (* literal 1.0 *)
  a_two : T;                 (* literal 2.0 *)
  a_add : T -> T -> T;
  a_sub : T -> T -> T;
  a_mul : T -> T -> T;
  a_div : T -> T -> T;
  a_pow2 : T -> T            (* std::pow(x, 2.0) *)
}.
Arguments a_zero {T} _.
Arguments a_one {T} _.
Arguments a_two {T} _.
Arguments a_add {T} _ _ _.
Arguments a_sub {T} _ _ _.
Arguments a_mul {T} _ _ _.
Arguments a_div {T} _ _ _.
Arguments a_pow2 {T} _ _.
