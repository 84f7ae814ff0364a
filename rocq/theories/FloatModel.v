(** * double_tos: the text by which two coordinates are compared

    matrix.cpp:171-176.  [double] is IEEE binary64 (Flocq's formalisation, round
    to nearest even; all NaNs are identified). *)
From Flocq Require Import IEEE754.BinarySingleNaN.
From Verif Require Export MatrixModel StrBase.

(** binary64 has 53 bits of precision *)
Definition p53 : FLX.Prec_gt_0 53 := eq_refl.
(** and exponents below 1024 *)
Definition p53e : Prec_lt_emax 53 1024 := eq_refl.
(** the C++ type double *)
Definition double : Type := binary_float 53 1024.

(** [*] on doubles, used at matrix.cpp:171-176 *)
Definition dmul (x y : double) : double := @Bmult 53 1024 p53 p53e mode_NE x y.
(** [/] on doubles, used at matrix.cpp:171-176 *)
Definition ddiv (x y : double) : double := @Bdiv 53 1024 p53 p53e mode_NE x y.
(** std::round: to the nearest integer, halves away from zero; the sign of the
    argument is kept (so -0.3 becomes -0). *)
Definition dround (x : double) : double := @Bnearbyint 53 1024 p53e mode_NA x.
(** Conversion of an int. *)
Definition dofint (n : Z) : double := @binary_normalize 53 1024 p53 p53e mode_NE n 0 false.

(** ** [ostream << double] with the default settings: printf's %g with six
    significant digits (C11 7.21.6.1), the digits being those of the exact binary
    value rounded half-even (glibc). *)

(** num/den rounded to the nearest integer, halves to even (num >= 0, den > 0). *)
Definition div_half_even (num den : Z) : Z :=
  let q := num / den in
  let r := num mod den in
  match Z.compare (2 * r) den with
  | Lt => q
  | Gt => q + 1
  | Eq => if Z.even q then q else q + 1
  end.

(** Number of decimal digits of a positive number. *)
Definition ndigits (n : Z) : Z := Z.of_nat (length (dec_nonneg n)).

(** The decimal exponent of num/den (at least 10^-400): the X with
    10^X <= num/den < 10^(X+1). *)
Definition dec_exponent (num den : Z) : Z := ndigits (num * 10 ^ 400 / den) - 401.

(** Six significant digits d and exponent X of m*2^e: about d*10^(X-5). *)
Definition six_digits (m : positive) (e : Z) : Z * Z :=
  let num := Zpos m * 2 ^ Z.max e 0 in
  let den := 2 ^ Z.max (- e) 0 in
  let X := dec_exponent num den in
  let d := div_half_even (num * 10 ^ Z.max (5 - X) 0) (den * 10 ^ Z.max (X - 5) 0) in
  if d =? 1000000 then (100000, X + 1) else (d, X).

(** The digits of a number below 10^6, most significant first. *)
Definition digit_string (d : Z) : str :=
  map (fun k => digit (d / 10 ^ k mod 10)) [5; 4; 3; 2; 1; 0].

(** Remove trailing zeros. *)
Fixpoint strip0 (s : str) : str :=
  match s with
  | [] => []
  | c :: s' => match strip0 s' with
               | [] => if Ascii.eqb c "0"%char then [] else [c]
               | t => c :: t
               end
  end.

(** integer part, and fractional part if it is not zero *)
Definition with_point (ip fp : str) : str :=
  match strip0 fp with
  | [] => ip
  | f => ip ++ "."%char :: f
  end.

(** The exponent has a sign and at least two digits. *)
Definition exponent_text (X : Z) : str :=
  "e"%char :: (if X <? 0 then "-"%char else "+"%char)
  :: (if Z.abs X <? 10 then "0"%char :: dec_nonneg (Z.abs X) else dec_nonneg (Z.abs X)).

(** %g with six digits (library, [ostream <<] of matrix.cpp:171-176) *)
Definition format_g (d X : Z) : str :=
  let ds := digit_string d in
  if (X <? -4) || (6 <=? X)
  then with_point (firstn 1 ds) (skipn 1 ds) ++ exponent_text X
  else if 0 <=? X
  then with_point (firstn (Z.to_nat (X + 1)) ds) (skipn (Z.to_nat (X + 1)) ds)
  else with_point $"0" (repeat "0"%char (Z.to_nat (- X - 1)) ++ ds).

(** the sign *)
Definition minus (s : bool) : str := if s then $"-" else [].

(** [ostream << double] (library), matrix.cpp:171-176 *)
Definition print_double (x : double) : str :=
  match x with
  | B754_zero s => minus s ++ $"0"
  | B754_infinity s => minus s ++ $"inf"
  | B754_nan => $"nan"
  | B754_finite s m e _ =>
      let '(d, X) := six_digits m e in minus s ++ format_g d X
  end.

(** [int tens = stod("1" + string(nd, '0'))]: a negative nd makes the string
    constructor throw (length_error, shown as OutOfRange); from 10^309 on stod
    throws; a value that does not fit an int is an undefined conversion. *)
Definition tens_of (nd : Z) : outcome Z :=
  if nd <? 0 then Throw OutOfRange
  else if 309 <=? nd then Throw OutOfRange
  else if 9 <? nd then Undef SignedOverflow
  else Ok (10 ^ nd).

(** matrix.cpp:171-176. *)
Definition double_tos (f : double) (nd : Z) : outcome str :=
  tens <- tens_of nd ;;
  Ok (print_double (ddiv (dround (dmul f (dofint tens))) (dofint tens))).

(** The label matchCol and matchRow compare, for 0 <= sf <= 9. *)
Definition label (sf : Z) (x : double) : str :=
  print_double (ddiv (dround (dmul x (dofint (10 ^ sf)))) (dofint (10 ^ sf))).
