(** * Decimal numerals and the real numbers they denote *)
From Coq Require Import Reals.
From Flocq Require Import Core.
From Verif Require Export FloatDigits.
Local Open Scope R_scope.

(** the value of a string of digits *)
Definition amount (s : str) : Z := fold_left (fun a c => (10 * a + digit_val c)%Z) s 0%Z.
(** an exponent: nothing, or e, a sign and digits *)
Inductive exponent : str -> Z -> Prop :=
| no_exponent : exponent [] 0
| plus_exponent ds : digs ds -> ds <> [] -> exponent ("e"%char :: "+"%char :: ds) (amount ds)
| minus_exponent ds : digs ds -> ds <> [] -> exponent ("e"%char :: "-"%char :: ds) (- amount ds).
(** the digits after the point, or no point *)
Definition fraction (t fp : str) : Prop := t = [] /\ fp = [] \/ t = "."%char :: fp /\ fp <> [] /\ digs fp.
(** [numeral t v]: the text [t], as in -12.5, 0.002 or 1.5e-07, denotes [v] ([bpow ten k] is 10^k) *)
Definition numeral (t : str) (v : R) : Prop :=
  exists (neg : bool) ip ft fp et k, digs ip /\ ip <> [] /\ fraction ft fp /\ exponent et k /\
    t = (if neg then $"-" else []) ++ ip ++ ft ++ et /\
    v = (if neg then -1 else 1) * IZR (amount (ip ++ fp)) * bpow ten (k - Z.of_nat (length fp)).
