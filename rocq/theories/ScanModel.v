(** * std::stod, atof in binary64

    Called in logreader.cpp:129, 148, 210, 252, 343-345, punreader.cpp:54-57,
    argumentparser.cpp:497-499 (std::stod) and logreader.cpp:294 (atof).  Both are C's strtod in the C locale
    (C11 7.22.1.3) with glibc's behaviour: the result is the nearest double (ties to
    even), overflow and inexact underflow set ERANGE, on which libstdc++'s stod throws
    out_of_range; a text without a number makes stod throw invalid_argument and atof
    return 0; what follows the number is ignored. *)
From Flocq Require Import IEEE754.BinarySingleNaN.
From Verif Require Export FloatModel ArgsModel.
From Verif Require Export StrSpec StrModel.
Open Scope Z_scope.

(** the leading characters that satisfy [p], and the rest *)
Fixpoint span (p : ascii -> bool) (s : str) : str * str :=
  match s with
  | [] => ([], [])
  | c :: t => if p c then let '(a, b) := span p t in (c :: a, b) else ([], s)
  end.
(** tolower in the C locale (library) *)
Definition lower (c : ascii) : Z := if (65 <=? code c) && (code c <=? 90) then code c + 32 else code c.
(** [s] begins with the lower case word [w], in any case *)
Fixpoint starts_ci (w s : str) : bool :=
  match w, s with
  | [], _ => true
  | a :: w', b :: s' => (code a =? lower b) && starts_ci w' s'
  | _, [] => false
  end.
(** an optional sign (library, strtod) *)
Definition sign (s : str) : bool * str :=
  match s with
  | c :: t => if Ascii.eqb c "-"%char then (true, t) else if Ascii.eqb c "+"%char then (false, t) else (false, s)
  | [] => (false, s)
  end.
(** an exponent introduced by the letter [x] (as a lower case code); without digits there is none *)
Definition exponent_of (x : Z) (s : str) : Z :=
  match s with
  | c :: t => if lower c =? x
              then let '(neg, r) := sign t in let '(ds, _) := span is_digit r in
                   if neg then - digits_val 0 ds else digits_val 0 ds
              else 0
  | [] => 0
  end.
(** digits, point, digits: the two groups and the rest; None without digits *)
Definition mantissa (p : ascii -> bool) (s : str) : option (str * str * str) :=
  let '(a, r) := span p s in
  let '(b, r') := match r with c :: t => if Ascii.eqb c "."%char then span p t else ([], r) | [] => ([], r) end in
  match a, b with [], [] => None | _, _ => Some (a, b, r') end.
(** hexadecimal digits *)
Definition hex_val (c : ascii) : Z := if is_digit c then digit_val c else lower c - 87.
(** isxdigit (library) *)
Definition is_hex (c : ascii) : bool := is_digit c || ((97 <=? lower c) && (lower c <=? 102)).
(** the value of hexadecimal digits (library, strtod) *)
Definition hex_value (s : str) : Z := fold_left (fun a c => 16 * a + hex_val c) s 0.

(** what a text shows: (-1)^neg * m * base^e, or something that is not a number *)
Inductive shown :=
| Number (neg : bool) (base : Z) (m e : Z)
| Infinite (neg : bool)
| NotANumber.
(** strtod after the sign (library) *)
Definition scan_body (neg : bool) (s : str) : option shown :=
  if starts_ci $"inf" s then Some (Infinite neg)
  else if starts_ci $"nan" s then Some NotANumber
  else match (if starts_ci $"0x" s then mantissa is_hex (skipn 2 s) else None) with
       | Some (a, b, r) => Some (Number neg 2 (hex_value (a ++ b)) (exponent_of 112 r - 4 * Z.of_nat (length b)))
       | None => match mantissa is_digit s with
                 | Some (a, b, r) => Some (Number neg 10 (digits_val 0 (a ++ b)) (exponent_of 101 r - Z.of_nat (length b)))
                 | None => None
                 end
       end.
(** strtod: white space, sign, body (library) *)
Definition scan (s : str) : option shown :=
  let '(neg, s) := sign (drop_while is_space s) in scan_body neg s.

(** n/d rounded to a double *)
Definition ratio (neg : bool) (n d : positive) : double :=
  SF2B _ (proj1 (Bdiv_correct_aux 53 1024 p53 p53e mode_NE neg n 0 false d 0)).
(** m * base^e as a fraction *)
Definition as_ratio (base m e : Z) : Z * Z := if 0 <=? e then (m * base ^ e, 1) else (m, base ^ (- e)).
(** the correctly rounded result of strtod (library) *)
Definition to_double (v : shown) : double :=
  match v with
  | Infinite neg => B754_infinity neg
  | NotANumber => B754_nan
  | Number neg base m e =>
      match as_ratio base m e with
      | (Zpos n, Zpos d) => ratio neg n d
      | _ => B754_zero neg
      end
  end.
(** ERANGE: a number too large, or so small that it is below the normal numbers after
    rounding to 53 digits, and not exactly a double *)
Definition underflows (n d : Z) : bool := (n * 2 ^ 1076 <? d * (2 ^ 54 - 1)) && negb ((n * 2 ^ 1074) mod d =? 0).
(** ERANGE (library) *)
Definition range_error (v : shown) : bool :=
  match v with
  | Number neg base m e => negb (is_finite (to_double v)) || (let '(n, d) := as_ratio base m e in underflows n d)
  | _ => false
  end.
(** std::stod (library), called at logreader.cpp:129, 148, 210, 252, 343-345, punreader.cpp:54, 57 and argumentparser.cpp:497-499 *)
Definition dstod (s : str) : outcome double :=
  match scan s with
  | None => Throw InvalidArgument
  | Some v => if range_error v then Throw OutOfRange else Ok (to_double v)
  end.
(** atof (library), called at logreader.cpp:294 *)
Definition datof (s : str) : double :=
  match scan s with None => B754_zero false | Some v => to_double v end.
