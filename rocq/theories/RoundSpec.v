(** * Binary64 arithmetic, real arithmetic and the magnitudes that bound rounding errors *)
From Coq Require Import Reals.
From Flocq Require Import Core IEEE754.BinarySingleNaN.
From Verif Require Export FloatModel QcSpec.
Local Open Scope R_scope.

(** ** The operations of the code: double +, -, *, / (matrix.cpp:204-235
    operator*, qc_functions.cpp:95-109), rounded to nearest even one by one.
    Simplification: no contraction to fused multiply-add and no extended precision
    (x86-64 code without -ffast-math or -mfma). *)
Definition dadd (x y : double) : double := @Bplus 53 1024 p53 p53e mode_NE x y.
Definition dsub (x y : double) : double := @Bminus 53 1024 p53 p53e mode_NE x y.
(** [pow2] is std::pow(x, 2.0), whose rounding the C++ standard does not fix (see [square]). *)
Definition binary64 (pow2 : double -> double) : arith double :=
  mkArith double (B754_zero false) (dofint 1) (dofint 2) dadd dsub dmul ddiv pow2.

(** ** The real numbers *)
Definition real : arith R := mkArith R 0 1 2 Rplus Rminus Rmult Rdiv (fun x => x * x).

(** ** Roundings *)
(** unit roundoff 2^-53 and the smallest normal number 2^-1022 *)
Definition u : R := / IZR (2 ^ 53).
Definition tiny : R := / IZR (2 ^ 1022).
(** the error factor of [k] roundings: about k * 1.1e-16 *)
Definition gamma (k : nat) : R := (1 + u) ^ k - 1.
(** The same computation with the terms of sums and differences taken positive, and
    [tiny] added to every product. *)
Definition magnitude : arith R := mkArith R 0 1 2 Rplus Rplus (fun x y => x * y + tiny) Rdiv (fun x => x * x + tiny).
(** [near k c x m]: the double [c], if finite, is the number [x] up to [k] roundings
    relative to [m]. *)
Definition near (k : nat) (c : double) (x m : R) : Prop :=
  Rabs x <= m /\ (is_finite c = true -> Rabs (B2R c - x) <= gamma k * m).
(** what is needed of std::pow(x, 2.0): one unit in the last place *)
Definition square (pow2 : double -> double) : Prop := forall x, is_finite (pow2 x) = true ->
  is_finite x = true /\ Rabs (B2R (pow2 x) - B2R x * B2R x) <= gamma 2 * (B2R x * B2R x + tiny).

(** numerator and denominator of the coupling *)
Definition J_num {T} (A : arith T) (K : nat) (e gA gB : Z -> T) : T :=
  a_sub A (accum A K gB (weighted A K e gA))
    (a_mul A (a_mul A (a_div A (a_one A) (a_two A)) (a_add A (accum A K gB (weighted A K e gB)) (accum A K gA (weighted A K e gA)))) (accum A K gB gA)).
Definition J_den {T} (A : arith T) (K : nat) (gA gB : Z -> T) : T :=
  a_sub A (a_one A) (a_pow2 A (accum A K gB gA)).
(** projections of the two monomer orbitals on the dimer orbitals, as in [J_value] *)
Definition gammaA {T} (A : arith T) (cp : bool) (n1 N : Z) (a fP fS : Z -> Z -> T) (r1 : Z) : Z -> T :=
  projection A (Z.to_nat N) fS fP (if cp then a r1 else pad_after A n1 (a r1)).
Definition gammaB {T} (A : arith T) (cp : bool) (n1 N : Z) (b fP fS : Z -> Z -> T) (r2 : Z) : Z -> T :=
  projection A (Z.to_nat N) fS fP (if cp then b r2 else pad_before A n1 (b r2)).

(** the real numbers doubles stand for, and their absolute values *)
Definition reals (f : Z -> Z -> double) (i j : Z) : R := B2R (f i j).
Definition sizes (f : Z -> Z -> double) (i j : Z) : R := Rabs (B2R (f i j)).
