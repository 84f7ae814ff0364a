(** * Specification vocabulary for qc_functions.cpp *)
From Verif Require Export MatrixSpec Arith QcModel.
Open Scope Z_scope.

(** Sum of block sizes, and the number of positions before block [k] (1-based):
    position j of block k is position [off b k + j] of the whole. *)
Definition total (b : list Z) : Z := fold_right Z.add 0 b.
Definition off (b : list Z) (k : Z) : Z := total (firstn (Z.to_nat (k - 1)) b).

(** size of block [k] *)
Definition size_of (b : list Z) (k : Z) : Z := nth (Z.to_nat (k - 1)) b 0.

(** [ord] lists every number 1..n exactly once. *)
Definition is_order (n : Z) (ord : list Z) : Prop :=
  Z.of_nat (length ord) = n /\ NoDup ord /\ Forall (fun x => 1 <= x <= n) ord.

(** block sizes after reordering: position i holds the block [ord_i] *)
Definition reordered (b ord : list Z) : list Z := map (size_of b) ord.

(** no number greater than zero occurs twice *)
Definition no_repeat (m : list Z) : Prop :=
  forall i j x, nth_error m i = Some x -> nth_error m j = Some x -> 0 < x -> i = j.

(** ** The transfer integral *)
Section Formula.
Context {T : Type}.
Variable A : arith T.

(** projection of the orbital [z] on dimer orbital [k]: z . S . P(k,.)
    (sums accumulated from left to right) *)
Definition projection (N : nat) (S P : Z -> Z -> T) (z : Z -> T) (k : Z) : T :=
  accum A N z (fun l => accum A N (fun m => S l m) (fun m => P k m)).

(** the two monomer orbitals in the dimer basis: padded with zeros *)
Definition pad_after (n1 : Z) (a : Z -> T) (l : Z) : T := if l <=? n1 then a l else a_zero A.
Definition pad_before (n1 : Z) (b : Z -> T) (l : Z) : T := if l <=? n1 then a_zero A else b (l - n1).

(** diagonal energy matrix applied to a vector *)
Definition weighted (K : nat) (e g : Z -> T) (i : Z) : T :=
  accum A K (fun k => if i =? k then e i else a_zero A) g.

(** J_eff from the projections gA, gB on the K dimer orbitals of energies e *)
Definition J_of (K : nat) (e gA gB : Z -> T) : T :=
  let J_ab := accum A K gB (weighted K e gA) in
  let e_b := accum A K gB (weighted K e gB) in
  let e_a := accum A K gA (weighted K e gA) in
  let S_ab := accum A K gB gA in
  a_div A (a_sub A J_ab (a_mul A (a_mul A (a_div A (a_one A) (a_two A)) (a_add A e_b e_a)) S_ab))
          (a_sub A (a_one A) (a_pow2 A S_ab)).
End Formula.

(** row of the coefficient matrix an orbital request refers to *)
Definition orbital_row (nMO homo : Z) (ty : str) (n : Z) : option Z :=
  if str_eqb ty ($"HOMO") then (if (n <=? 0) && (- homo <? n) then Some (homo + n) else None)
  else if str_eqb ty ($"LUMO") then (if (0 <=? n) && (n <? nMO - homo) then Some (homo + 1 + n) else None)
  else None.

(** ** Atoms and their order *)
Section Atoms.
Context {T : Type}.
Variable lab : T -> str.   (* the text a coordinate is compared by *)

(** atom [i] of geometry [q] and atom [i'] of geometry [q'] (columns of D
    coordinates) are the same up to the comparison text *)
Definition same_atom (D : Z) (q q' : Z -> Z -> Z -> T) (i i' : Z) : Prop :=
  forall j, 1 <= j <= D -> lab (q j i 1) = lab (q' j i' 1).

(** [ord] names, for every atom of [q], the one atom among the N of [q'] that is
    the same *)
Definition finds (D N : Z) (q q' : Z -> Z -> Z -> T) (ord : list Z) : Prop :=
  forall i k, nth_error ord (Z.to_nat (i - 1)) = Some k -> 1 <= i ->
    1 <= k <= N /\ forall k', 1 <= k' <= N -> (same_atom D q q' i k' <-> k' = k).

(** [f'] is [f] with the column blocks of [b] listed in the order [ord] *)
Definition blocks_moved (b ord : list Z) (f f' : Z -> Z -> T) : Prop :=
  forall x i k j, 1 <= i -> nth_error ord (Z.to_nat (i - 1)) = Some k -> 1 <= j <= size_of b k ->
    f' x (off (reordered b ord) i + j) = f x (off b k + j).

(** the same for rows and columns at once *)
Definition blocks_moved2 (b ord : list Z) (f f' : Z -> Z -> T) : Prop :=
  forall i k j i' k' j',
    1 <= i -> nth_error ord (Z.to_nat (i - 1)) = Some k -> 1 <= j <= size_of b k ->
    1 <= i' -> nth_error ord (Z.to_nat (i' - 1)) = Some k' -> 1 <= j' <= size_of b k' ->
    f' (off (reordered b ord) i + j) (off (reordered b ord) i' + j') = f (off b k + j) (off b k' + j').
End Atoms.

(** ** The pieces of a complex *)
Section Complex.
Context {T : Type}.
Variable A : arith T.
Implicit Types (m : mat T).

(** energies stored as a column or as a row *)
Definition energies m (K : Z) (e : Z -> T) : Prop :=
  denotes m K 1 1 (fun r _ _ => e r) \/ denotes m 1 K 1 (fun _ c _ => e c).

(** a complex whose pieces fit together *)
Record fits_together (tc : TC) (N1 N2 n1 n2 N K : Z) (a b fP fS : Z -> Z -> T) (e : Z -> T) : Prop := {
  ft_1 : denotes (tc_1 tc) N1 n1 1 (fun r c _ => a r c);
  ft_2 : denotes (tc_2 tc) N2 n2 1 (fun r c _ => b r c);
  ft_P : denotes (tc_P tc) K N 1 (fun r c _ => fP r c);
  ft_S : denotes (tc_S tc) N N 1 (fun r c _ => fS r c);
  ft_E : energies (tc_OE tc) K e;
  ft_o1 : fst (tc_orbs1 tc) = N1 /\ 0 <= snd (tc_orbs1 tc) <= N1;
  ft_o2 : fst (tc_orbs2 tc) = N2 /\ 0 <= snd (tc_orbs2 tc) <= N2;
  ft_pos : 1 <= n1 /\ 1 <= n2 /\ 1 <= K /\ K * K <= INT_MAX;
  ft_N : if tc_cp tc then n1 = N /\ n2 = N else n1 + n2 = N }.

(** the value calcJ computes for rows r1, r2 *)
Definition J_value (cp : bool) (n1 N K : Z) (a b fP fS : Z -> Z -> T) (e : Z -> T) (r1 r2 : Z) : T :=
  J_of A (Z.to_nat K) e
    (projection A (Z.to_nat N) fS fP (if cp then a r1 else pad_after A n1 (a r1)))
    (projection A (Z.to_nat N) fS fP (if cp then b r2 else pad_before A n1 (b r2))).
(** the four numbers it is made of: J_ab, e_a, e_b, S_ab, given to [f] *)
Definition numbers_of {R} (f : T -> T -> T -> T -> R) (K : nat) (e gA gB : Z -> T) : R :=
  f (accum A K gB (weighted A K e gA)) (accum A K gA (weighted A K e gA)) (accum A K gB (weighted A K e gB)) (accum A K gB gA).
Definition numbers_value {R} (f : T -> T -> T -> T -> R) (cp : bool) (n1 N K : Z) (a b fP fS : Z -> Z -> T) (e : Z -> T) (r1 r2 : Z) : R :=
  numbers_of f (Z.to_nat K) e
    (projection A (Z.to_nat N) fS fP (if cp then a r1 else pad_after A n1 (a r1)))
    (projection A (Z.to_nat N) fS fP (if cp then b r2 else pad_before A n1 (b r2))).
End Complex.
