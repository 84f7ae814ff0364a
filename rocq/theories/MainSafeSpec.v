(** * Specification for C97: calc_J on any input

    Coordinates are three lists, x, y and z, with one entry per atom. *)
From Verif Require Export MainModel ReaderSafeSpec.
Open Scope Z_scope.

(** [stod] returns a number or throws *)
Definition sound_double (E : env) : Prop := forall s u, e_stod E s <> Undef u.

Section Atoms.
Context {T : Type} (lab : T -> str).
Definition atoms (c : list (list T)) : nat := length (hd [] c).
(** the coordinates of atom [i], as the texts they are compared by *)
Definition place_of (c : list (list T)) (i : nat) : list (option str) := map (fun axis => option_map lab (nth_error axis i)) c.
(** an atom of [c'] is where atom [i] of [c] is *)
Definition counterpart (c c' : list (list T)) (i : nat) : Prop := exists k, (k < atoms c')%nat /\ place_of c i = place_of c' k.
(** all atoms of [c] are atoms of [c'] *)
Definition among (c c' : list (list T)) : Prop := forall i, (i < atoms c)%nat -> counterpart c c' i.
End Atoms.

(** the atoms of the monomers are atoms of the dimer and the population analysis lists all atoms; with
    the counter poise correction: the atoms of the first monomer are atoms of the others *)
Definition lined_up (N : nums) (lab : num N -> str) (cp : bool) (l1 l2 lP : LogReader N) : Prop :=
  let c1 := getCoords N l1 in let c2 := getCoords N l2 in let cP := getCoords N lP in
  let nP := length (getBasisFuncCount N lP) in let n2 := length (getBasisFuncCount N l2) in
  if cp then among lab c1 c2 /\ among lab c1 cP /\ (atoms c1 <= n2)%nat /\ (atoms c2 <= n2)%nat /\ (atoms c1 <= nP)%nat /\ (atoms cP <= nP)%nat
  else among lab c1 cP /\ among lab c2 cP /\ (atoms c1 + atoms c2 <= nP)%nat /\ (atoms cP <= nP)%nat.

(** the request the command line stands for *)
Definition requests (E : env) (argv : list str) (par : params) : Prop :=
  exists P0 P, prepareParser E = Ok P0 /\ parse argv P0 = Ok P /\ prepareParameters P = Ok par.

(** at most 46340 rows, columns, energies, atoms and basis functions of an atom *)
Definition moderate (N : nums) (par : params) (p1 p2 pP : PunReader N) (l1 l2 lP : LogReader N) : Prop :=
  Forall (fun o => forall m, o = Ok m -> MatrixModel.rows m <= 46340 /\ MatrixModel.cols m <= 46340)
    [getOverlapMatrix N lP; getCoefsMatrix N p1 (spin1 par); getCoefsMatrix N p2 (spin2 par); getCoefsMatrix N pP (spinP par)] /\
  Forall (fun o => forall e, o = Ok e -> Z.of_nat (length e) <= 46340) [getOE N l1 (spin1 par); getOE N l2 (spin2 par); getOE N lP (spinP par)] /\
  Forall (fun l => Z.of_nat (atoms (getCoords N l)) <= 46340) [l1; l2; lP] /\
  Forall (fun l => Z.of_nat (length (getBasisFuncCount N l)) <= 46340 /\ Forall (fun k => k <= 46340) (getBasisFuncCount N l)) [l2; lP].

(** the three ways a request can go wrong: the dimer's log file is read but has no overlap matrix; the three log files
    are read, all with populations, but do not line up; an [int] overflows while a file is read, or because the files are read but are too large *)
Definition mishap (N : nums) (lab : num N -> str) (disk : str -> option str) (fuel : nat) (par : params) (u : ubkind) : Prop :=
  (u = Uninitialised /\ exists lP, open_log N disk fuel (logP par) = Ok lP /\ getOverlapMatrix N lP = Undef Uninitialised) \/
  (u = BadIterator /\ exists l1 l2 lP, open_log N disk fuel (log1 par) = Ok l1 /\ open_log N disk fuel (log2 par) = Ok l2 /\ open_log N disk fuel (logP par) = Ok lP /\
     getBasisFuncCount N l1 <> [] /\ getBasisFuncCount N l2 <> [] /\ getBasisFuncCount N lP <> [] /\ ~ lined_up N lab (counterPoise par) l1 l2 lP) \/
  (u = SignedOverflow /\
     ((exists name, In name [log1 par; log2 par; logP par] /\ open_log N disk fuel name = Undef SignedOverflow) \/
      (exists name, In name [pun1 par; pun2 par; punP par] /\ open_pun N disk fuel name = Undef SignedOverflow) \/
      exists p1 p2 pP l1 l2 lP, open_pun N disk fuel (pun1 par) = Ok p1 /\ open_pun N disk fuel (pun2 par) = Ok p2 /\ open_pun N disk fuel (punP par) = Ok pP /\
        open_log N disk fuel (log1 par) = Ok l1 /\ open_log N disk fuel (log2 par) = Ok l2 /\ open_log N disk fuel (logP par) = Ok lP /\ ~ moderate N par p1 p2 pP l1 l2 lP)).
