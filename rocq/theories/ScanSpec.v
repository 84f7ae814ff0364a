(** * Decimal numbers in texts *)
From Coq Require Import Reals.
From Flocq Require Import Core.
From Verif Require Export PrintSpec.
From Verif Require Export StrSpec StrModel.
Local Open Scope R_scope.

(** a power of ten: nothing, or e or E, a sign or not, digits *)
Inductive power : str -> Z -> Prop :=
| no_power : power [] 0
| with_power c sg neg ds : (c = "e"%char \/ c = "E"%char) -> (sg = [] /\ neg = false \/ sg = $"+" /\ neg = false \/ sg = $"-" /\ neg = true) ->
    digs ds -> ds <> [] -> power (c :: sg ++ ds) (if neg then - amount ds else amount ds)%Z.
(** [decimal t v]: the text [t], as in -12.5, +.5, 3. or 1.5E-07, denotes the number [v] *)
Definition decimal (t : str) (v : R) : Prop :=
  exists sg (neg : bool) ip ft fp et k, (sg = [] /\ neg = false \/ sg = $"+" /\ neg = false \/ sg = $"-" /\ neg = true) /\
    digs ip /\ digs fp /\ (ft = [] /\ fp = [] \/ ft = "."%char :: fp) /\ ip ++ fp <> [] /\ power et k /\
    t = sg ++ ip ++ ft ++ et /\
    v = (if neg then -1 else 1) * IZR (amount (ip ++ fp)) * bpow ten (k - Z.of_nat (length fp)).
(** [rest] does not continue a number *)
Definition stops (rest : str) : Prop :=
  match rest with [] => True | c :: _ => is_digit c = false /\ ~ In c [ "."; "e"; "E"; "x"; "X" ]%char end.
(** what is read from [s] is [v]: white space, a decimal number, something else *)
Definition begins_with (s : str) (v : R) : Prop :=
  exists ws t rest, s = ws ++ t ++ rest /\ Forall (fun c => is_space c = true) ws /\ decimal t v /\ stops rest.
