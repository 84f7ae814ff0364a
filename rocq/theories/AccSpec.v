(** * What files say in real numbers, and the machine's numbers *)
From Coq Require Import Reals.
From Flocq Require Import Core IEEE754.BinarySingleNaN.
From Verif Require Export RoundSpec ScanFacts MainSpec.
From Verif Require Export StrSpec StrModel.
Local Open Scope R_scope.

(** ** The numbers written in a file: sign and value; None for texts such as inf, nan
    and for powers of ten that are not whole or beyond 10^300.

    [scan] takes a text apart, [exactly] is the number it shows: for a decimal numeral
    the number the numeral denotes (ScanSpec.v and theorem C85_written). *)
Definition written_number := option (bool * R).
Definition shown_number (v : shown) : written_number :=
  match v with Number neg _ _ _ => Some (neg, exactly v) | _ => None end.
Definition written_stod (s : str) : outcome written_number :=
  match scan s with
  | None => Throw InvalidArgument
  | Some v => if range_error v then Throw OutOfRange else Ok (shown_number v)
  end.
Definition written_atof (s : str) : written_number := match scan s with Some v => shown_number v | None => None end.
Definition written_mul (x y : written_number) : written_number :=
  match x, y with Some (s, a), Some (t, b) => Some (xorb s t, a * b) | _, _ => None end.
(** ten to the power [y] *)
Definition written_pow10 (y : written_number) : written_number :=
  match y with
  | Some (_, b) => let k := Ztrunc b in
      if Req_EM_T b (IZR k) then if (Z.abs k <=? 300)%Z then Some (false, bpow ten k) else None else None
  | None => None
  end.
Definition written : nums := mkNums written_number (Some (false, 0)) written_mul written_stod written_atof written_pow10.
Definition the (x : written_number) : R := match x with Some (_, a) => a | None => 0 end.
(** a number of at most 2^30 *)
Definition moderate_number (x : written_number) : Prop := x <> None /\ Rabs (the x) <= IZR (2 ^ 30).

(** ** The machine's numbers; [pow10] is std::pow(10, x) *)
Definition machine (pow10 : double -> double) : nums := mkNums double (B754_zero false) dmul dstod datof pow10.
(** what is needed of std::pow(10, k), whose rounding the C++ standard does not fix: one
    unit in the last place for whole numbers *)
Definition powers (pow10 : double -> double) : Prop := forall y k, is_finite y = true -> B2R y = IZR k -> (Z.abs k <= 300)%Z ->
  is_finite (pow10 y) = true /\ Rabs (B2R (pow10 y) - bpow ten k) <= gamma 2 * bpow ten k.
(** std::pow(x, 2) of a moderate number does not overflow *)
Definition squares (pow2 : double -> double) : Prop := square pow2 /\
  forall x, is_finite x = true -> Rabs (B2R x) <= IZR (2 ^ 400) -> is_finite (pow2 x) = true.

(** ** The data of a calculation *)
(** every number used is there and moderate *)
Record readable (d : data written) : Prop := {
  re_1 : Forall (Forall moderate_number) (coef1 written d);
  re_2 : Forall (Forall moderate_number) (coef2 written d);
  re_P : Forall (Forall moderate_number) (coefP written d);
  re_e : Forall moderate_number (enP written d);
  re_S : forall i j, (1 <= j <= i)%Z -> (i <= size written d)%Z -> moderate_number (over written d i j) }.
(** real numbers, and sizes for the error bounds *)
Definition number2 (f : Z -> Z -> written_number) (i j : Z) : R := the (f i j).
Definition scale2 (f : Z -> Z -> written_number) (i j : Z) : R := Rabs (the (f i j)) + tiny.
Definition number1 (f : Z -> written_number) (i : Z) : R := the (f i).
Definition scale1 (f : Z -> written_number) (i : Z) : R := Rabs (the (f i)) + tiny.

(** ** Coordinates, compared at [nd] decimals *)
(** close to the same decimal, with the same sign around zero *)
Definition same_decimal (nd : Z) (x y : written_number) : Prop := exists s a t b k, x = Some (s, a) /\ y = Some (t, b) /\ (Z.abs k <= 999998)%Z /\
  Rabs (a * bpow ten nd - IZR k) <= / 2 - / 100000000 /\ Rabs (b * bpow ten nd - IZR k) <= / 2 - / 100000000 /\ (k = 0%Z -> s = t).
(** more than one unit of the last decimal apart *)
Definition far_apart (nd : Z) (x y : written_number) : Prop := exists s a t b, x = Some (s, a) /\ y = Some (t, b) /\
  Rabs (a * bpow ten nd) <= 999998 /\ Rabs (b * bpow ten nd) <= 999998 /\ 1 + / 100000000 <= Rabs (a - b) * bpow ten nd.
(** [ord] names for every atom of the first geometry the one of the second with the same coordinates; every other one differs in a coordinate *)
Definition located (nd N : Z) (q q' : Z -> Z -> Z -> written_number) (ord : list Z) : Prop :=
  forall i k, nth_error ord (Z.to_nat (i - 1)) = Some k -> (1 <= i)%Z ->
    (1 <= k <= N)%Z /\ (forall j, (1 <= j <= 3)%Z -> same_decimal nd (q j i 1%Z) (q' j k 1%Z)) /\
    forall k', (1 <= k' <= N)%Z -> k' <> k -> exists j, (1 <= j <= 3)%Z /\ far_apart nd (q j i 1%Z) (q' j k' 1%Z).
