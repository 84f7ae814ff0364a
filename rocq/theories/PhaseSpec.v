(** * Specification vocabulary: the signs of the orbitals *)
From Verif Require Export MainSpec OutputSpec.
From Verif Require Export StrSpec StrModel.
Open Scope Z_scope.

Section Phase.
Context (N : nums) (lab : num N -> str).
Implicit Types (d : data N).
(** how the program lines up the basis functions of the calculations [d]: not at all (a log file has
    no population analysis), or with the atoms of the dimer found among those of the monomers *)
Inductive lined_up (cp : bool) d : bool -> Prop :=
| lu_not : ba1 N d = [] \/ ba2 N d = [] \/ baP N d = [] -> lined_up cp d false
| lu_plain oA oB : cp = false -> ba1 N d <> [] -> ba2 N d <> [] -> baP N d <> [] -> total (baP N d) = size N d -> Forall (fun k => 1 <= k) (baP N d) ->
    count (at1 N d) = count oA -> count (at2 N d) = count oB -> count (atP N d) = count (baP N d) ->
    finds lab 3 (count (baP N d)) (position N (at1 N d)) (position N (atP N d)) oA ->
    finds lab 3 (count (baP N d)) (position N (at2 N d)) (position N (atP N d)) oB -> is_order (count (baP N d)) (oA ++ oB) -> lined_up cp d true
| lu_cp o2 oP : cp = true -> ba1 N d <> [] -> length (ba2 N d) = length (baP N d) -> baP N d <> [] -> total (baP N d) = size N d -> total (ba2 N d) = size N d ->
    Forall (fun k => 1 <= k) (baP N d) -> Forall (fun k => 1 <= k) (ba2 N d) ->
    count (at1 N d) = count (baP N d) -> count (at2 N d) = count (baP N d) -> count (atP N d) = count (baP N d) ->
    finds lab 3 (count (baP N d)) (position N (at1 N d)) (position N (at2 N d)) o2 ->
    finds lab 3 (count (baP N d)) (position N (at1 N d)) (position N (atP N d)) oP -> is_order (count (baP N d)) o2 -> is_order (count (baP N d)) oP -> lined_up cp d true.

(** [sg true x y]: y is -x; [sg false x y]: y is x.
    The data [d'] are the data [d] with other signs: the coefficients of orbital [r1] of monomer 1 multiplied by a
    sign ([s1 = true]: -1), those of orbital [r2] of monomer 2 by [s2] and those of every orbital k of the dimer by
    [sP k].  Nothing is said about the other orbitals and the energies of the monomers. *)
Record phases (sg : bool -> num N -> num N -> Prop) (s1 s2 : bool) (sP : Z -> bool) (r1 r2 : Z) d d' : Prop := {
  ph_1 : forall c, 1 <= c <= width N (coef1 N d) -> sg s1 (table N (coef1 N d) r1 c) (table N (coef1 N d') r1 c);
  ph_2 : forall c, 1 <= c <= width N (coef2 N d) -> sg s2 (table N (coef2 N d) r2 c) (table N (coef2 N d') r2 c);
  ph_P : forall k c, 1 <= k <= count (coefP N d) -> 1 <= c <= width N (coefP N d) -> sg (sP k) (table N (coefP N d) k c) (table N (coefP N d') k c);
  ph_w : width N (coef1 N d') = width N (coef1 N d) /\ width N (coef2 N d') = width N (coef2 N d);
  ph_e : enP N d' = enP N d;
  ph_S : size N d' = size N d /\ forall i j, 1 <= j <= i -> i <= size N d -> over N d' i j = over N d i j;
  ph_at : at1 N d' = at1 N d /\ at2 N d' = at2 N d /\ atP N d' = atP N d;
  ph_ba : ba1 N d' = ba1 N d /\ ba2 N d' = ba2 N d /\ baP N d' = baP N d }.
(** standard error of the run *)
Definition advice (lined : bool) : list str := if lined then [] else [order_warning].
End Phase.
(** exact arithmetic: [x] times a sign *)
Definition signed {T} (opp : T -> T) (s : bool) (x : T) : T := if s then opp x else x.
