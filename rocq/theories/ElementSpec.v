(** * Specification vocabulary: matrix elements between the orbitals of the monomers *)
From Verif Require Export QcSpec Exact.
From Verif Require Export ReaderModel MainSpec ContentSpec PhaseSpec LevelsSpec.
From Verif Require Export StrSpec StrModel.
Open Scope Z_scope.

Section Matrices.
Context {T : Type} (A : arith T).
(** <x|M|y> in a basis of [n] functions *)
Definition element (n : Z) (M : Z -> Z -> T) (x y : Z -> T) : T :=
  sum A (Z.to_nat n) (fun i => a_mul A (x i) (sum A (Z.to_nat n) (fun j => a_mul A (M i j) (y j)))).
(** The rows of [P] are complete in the basis with overlap [S]: sum_k P_k P_k^T S is the identity (which orthonormal
    orbitals as many as basis functions are). *)
Definition complete (n K : Z) (S P : Z -> Z -> T) : Prop :=
  forall i l, 1 <= i <= n -> 1 <= l <= n ->
    sum A (Z.to_nat K) (fun k => a_mul A (P k i) (sum A (Z.to_nat n) (fun j => a_mul A (P k j) (S j l)))) = if i =? l then a_one A else a_zero A.
(** They are the orbitals of the operator [F] with energies [e]: F P_k = e_k S P_k. *)
Definition orbitals_of (n K : Z) (F S P : Z -> Z -> T) (e : Z -> T) : Prop :=
  forall k i, 1 <= k <= K -> 1 <= i <= n ->
    sum A (Z.to_nat n) (fun j => a_mul A (F i j) (P k j)) = a_mul A (e k) (sum A (Z.to_nat n) (fun j => a_mul A (S i j) (P k j))).
(** The two sides do not touch: basis functions are on the left or on the right, functions of different sides do not
    overlap, every orbital of the dimer is on one side, [w1] is on the left and [w2] on the right. *)
Record apart (n K : Z) (left : Z -> bool) (S P : Z -> Z -> T) (w1 w2 : Z -> T) : Prop := {
  ap_S : forall i j, 1 <= i <= n -> 1 <= j <= n -> left i <> left j -> S i j = a_zero A;
  ap_P : forall k, 1 <= k <= K -> exists side, forall c, 1 <= c <= n -> left c <> side -> P k c = a_zero A;
  ap_1 : forall c, 1 <= c <= n -> left c = false -> w1 c = a_zero A;
  ap_2 : forall c, 1 <= c <= n -> left c = true -> w2 c = a_zero A }.
End Matrices.

Section Places.
Context (N : nums) (A : arith (num N)) (lab : num N -> str).
Implicit Types (d : data N).
(** coefficients of an orbital of monomer 1 (2) among all basis functions: with counterpoise correction they are
    listed for all functions, without it monomer 1 has the first ones and monomer 2 the others *)
Definition spread_1 (cp : bool) d (x : Z -> num N) : Z -> num N := if cp then x else pad_after A (width N (coef1 N d)) x.
Definition spread_2 (cp : bool) d (x : Z -> num N) : Z -> num N := if cp then x else pad_before A (width N (coef1 N d)) x.
(** [w1] and [w2] are orbitals number [r1] of monomer 1 and [r2] of monomer 2, written in the basis functions of the
    dimer in the order of the dimer's files: as they are if they could not be lined up ([u] = false); otherwise the
    functions of an atom of a monomer are those of the same atom of the dimer. *)
Inductive in_dimer (cp : bool) d (r1 r2 : Z) (w1 w2 : Z -> num N) : bool -> Prop :=
| in_not : ba1 N d = [] \/ ba2 N d = [] \/ baP N d = [] -> w1 = spread_1 cp d (table N (coef1 N d) r1) -> w2 = spread_2 cp d (table N (coef2 N d) r2) -> in_dimer cp d r1 r2 w1 w2 false
| in_plain oA oB : cp = false -> is_order (count (baP N d)) (oA ++ oB) ->
    finds lab 3 (count (baP N d)) (position N (at1 N d)) (position N (atP N d)) oA -> finds lab 3 (count (baP N d)) (position N (at2 N d)) (position N (atP N d)) oB ->
    blocks_moved (baP N d) (oA ++ oB) (fun _ => w1) (fun _ => spread_1 cp d (table N (coef1 N d) r1)) ->
    blocks_moved (baP N d) (oA ++ oB) (fun _ => w2) (fun _ => spread_2 cp d (table N (coef2 N d) r2)) -> in_dimer cp d r1 r2 w1 w2 true
| in_cp o2 oP g2 : cp = true -> is_order (count (baP N d)) o2 -> is_order (count (baP N d)) oP ->
    finds lab 3 (count (baP N d)) (position N (at1 N d)) (position N (at2 N d)) o2 -> finds lab 3 (count (baP N d)) (position N (at1 N d)) (position N (atP N d)) oP ->
    blocks_moved (ba2 N d) o2 (table N (coef2 N d)) g2 ->
    blocks_moved (baP N d) oP (fun _ => w1) (fun _ => table N (coef1 N d) r1) -> blocks_moved (baP N d) oP (fun _ => w2) (fun _ => g2 r2) -> in_dimer cp d r1 r2 w1 w2 true.
End Places.
