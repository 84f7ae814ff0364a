(** * Specification vocabulary: the same calculations with other energies of the dimer's orbitals *)
From Verif Require Export QcSpec Exact.
From Verif Require Export ReaderModel MainSpec ContentSpec PhaseSpec.
From Verif Require Export StrSpec StrModel.
Open Scope Z_scope.

Section Levels.
Context (N : nums).
Implicit Types (d : data N).
(** [d'] is [d] but for the energies of the dimer's orbitals (and what the value is not made of); energy k of
    [d'] is [f] of energy k of [d]. *)
Record levels (f : num N -> num N) d d' (r1 r2 r1' r2' : Z) : Prop := {
  lv_e : forall k, 1 <= k <= count (coefP N d) -> entry N (enP N d') k = f (entry N (enP N d) k);
  lv_P : count (coefP N d') = count (coefP N d) /\ forall k c, 1 <= k <= count (coefP N d) -> 1 <= c <= size N d -> table N (coefP N d') k c = table N (coefP N d) k c;
  lv_1 : same_orbital N (coef1 N d) (coef1 N d') r1 r1';
  lv_2 : same_orbital N (coef2 N d) (coef2 N d') r2 r2';
  lv_S : size N d' = size N d /\ forall i j, 1 <= j <= i -> i <= size N d -> over N d' i j = over N d i j;
  lv_at : at1 N d' = at1 N d /\ at2 N d' = at2 N d /\ atP N d' = atP N d;
  lv_ba : ba1 N d' = ba1 N d /\ ba2 N d' = ba2 N d /\ baP N d' = baP N d }.
(** a run that can be carried out: command line [l] in the environment [E] asks for [p], the files hold [d],
    orbitals number [r1] and [r2] are requested *)
Record job (E : env) (disk : str -> option str) (l : list ParserSpec.item) (p : params) d (r1 r2 : Z) : Prop := {
  jb_line : clean_line E l; jb_asks : asks E l p; jb_files : contain N disk p d; jb_fit : belong N (counterPoise p) d; jb_rows : rows_asked N p d r1 r2 }.
(** the four numbers J_ab, e_a, e_b, S_ab that a run computes *)
Definition four (_ : params) (_ : bool) (J_ab e_a e_b S_ab : num N) : num N * num N * num N * num N := (J_ab, e_a, e_b, S_ab).
End Levels.
