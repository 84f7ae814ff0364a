(** * Specification vocabulary for matrices

    A matrix is observed through its three dimensions and [get_elem(r,c,s)].
    [denotes m R C S f] says that [m] is an R x C x S matrix whose element
    (r,c,s) is [f r c s], with every element initialised. *)
From Verif Require Export MatrixModel StrBase.

(** (r,c,s) is a position of an R x C x S matrix (1-based). *)
Definition inside (R C S r c s : Z) : Prop :=
  1 <= r <= R /\ 1 <= c <= C /\ 1 <= s <= S.

(** The dimensions can be represented and the block fits an [int] index. *)
Definition fits (R C S : Z) : Prop :=
  0 <= R <= INT_MAX /\ 0 <= C <= INT_MAX /\ 0 <= S <= INT_MAX /\ R * C * S <= INT_MAX.

(** The block of the matrix is as large as its dimensions say. *)
Definition wf {T} (m : mat T) : Prop :=
  fits (rows m) (cols m) (shel m) /\
  Z.of_nat (length (elem m)) = rows m * cols m * shel m.

Definition denotes {T} (m : mat T) (R C S : Z) (f : Z -> Z -> Z -> T) : Prop :=
  wf m /\ rows m = R /\ cols m = C /\ shel m = S /\
  forall r c s, inside R C S r c s -> get_elem3 m r c s = Ok (f r c s).

(** The usual two-dimensional case (one shelf). *)
Definition denotes2 {T} (m : mat T) (R C : Z) (f : Z -> Z -> T) : Prop :=
  denotes m R C 1 (fun r c _ => f r c).

(** A vector holds [g 1 .. g n]. *)
Definition lists {A} (v : list A) (n : Z) (g : Z -> A) : Prop :=
  Z.of_nat (length v) = n /\
  forall i, 1 <= i <= n -> nth_error v (Z.to_nat (i - 1)) = Some (g i).

(** position [i] of the result of moving [a] to [b] comes from [moved a b i]. *)
Definition moved (a b i : Z) : Z :=
  if i =? b then a
  else if (a <=? i) && (i <? b) then i + 1
  else if (b <? i) && (i <=? a) then i - 1
  else i.

(** [e] is the entry for a predicate [P] over 1..n: the largest index
    satisfying it, or -1. *)
Definition last_match (n : Z) (P : Z -> Prop) (e : Z) : Prop :=
  (e = -1 /\ forall k, 1 <= k <= n -> ~ P k) \/
  (1 <= e <= n /\ P e /\ forall k, e < k <= n -> ~ P k).

(** Left-to-right accumulation from zero of u(k)*v(k), k = 1..n. *)
Fixpoint accum {T} (A : arith T) (n : nat) (u v : Z -> T) : T :=
  match n with
  | O => a_zero A
  | S n' => a_add A (accum A n' u v) (a_mul A (u (Z.of_nat n)) (v (Z.of_nat n)))
  end.

(** ** Text produced by operator<< : specification *)
(** g(1) ++ ... ++ g(n) *)
Definition cat_upto (n : Z) (g : Z -> str) : str :=
  flat_map g (map Z.of_nat (seq 1 (Z.to_nat n))).

(** One printed shelf: caption, column captions, one line per row. *)
Definition shelf_text {T} (show : T -> str) (R C k : Z) (v : Z -> Z -> T) : str :=
  [nl] ++ $"Shelf " ++ dec k ++ [nl; tab]
  ++ cat_upto C (fun j => $"Col " ++ dec j ++ [tab]) ++ [nl]
  ++ cat_upto R (fun i => $"Row " ++ dec i ++ [tab]
       ++ cat_upto C (fun j => show (v i j) ++ [tab]) ++ [nl]).

Definition matrix_text {T} (show : T -> str) (R C S : Z) (f : Z -> Z -> Z -> T) : str :=
  $"Matrix Attributes" ++ [nl] ++ $"rows " ++ dec R ++ [nl] ++ $"cols " ++ dec C
  ++ [nl] ++ $"shel " ++ dec S
  ++ cat_upto S (fun k => shelf_text show R C k (fun i j => f i j k)).

