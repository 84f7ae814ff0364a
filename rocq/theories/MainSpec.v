(** * Specification vocabulary for calc_J as a whole

    The request is a [params] record (six file names and settings); the contents
    of the files are described with ReaderSpec.v; the value with QcSpec.v. *)
From Verif Require Export MainModel.
From Verif Require Export QcSpec.
From Verif Require Export CatnipSpec ReaderSpec.
From Verif Require Export ReaderNames.
From Verif Require Export StrSpec StrModel.
Open Scope Z_scope.

(** the command line [l] asks for [p] *)
Record asks (E : env) (l : list ParserSpec.item) (p : params) : Prop := {
  as_files : forall own partner exts ext n, In (own, partner, exts, ext, n) (CatnipSpec.files p) ->
    resolves E l own partner exts n /\ ends_in n ext /\ storable n;
  as_spins : value_or $"--spin_P" $"Alpha" l (spinP p) /\ value_or $"--spin_1" $"Alpha" l (spin1 p) /\ value_or $"--spin_2" $"Alpha" l (spin2 p);
  as_types : value_or $"--orbital_type_1" $"HOMO" l (orb_type1 p) /\ value_or $"--orbital_type_2" $"HOMO" l (orb_type2 p);
  as_nums : number_or $"--orbital_num_1" 0 l (orb_num1 p) /\ number_or $"--orbital_num_2" 0 l (orb_num2 p);
  as_ok : consistent (orb_type1 p) (orb_num1 p) /\ consistent (orb_type2 p) (orb_num2 p);
  as_cp : counterPoise p = true <-> In $"--counter_poise" (switched l) }.

Section Files.
Context (N : nums) (disk : str -> option str).
Notation num := (num N).

(** a command line without the cases in which CATNIP picks other files (see C58, C60) *)
Definition clean_line (E : env) (l : list ParserSpec.item) : Prop :=
  valid (catnip E) l /\ (forall f w, In f file_flags -> In (f, w) (given l) -> no_white w) /\ (forall f, In f file_flags -> once f l).

(** one dot in the last component of the path (see C61) *)
Definition one_dot (n ext : str) : Prop := exists a, last_component n (a ++ ext) /\ ~ In "."%char a.

(** what a pun file says about a spin: the coefficients, one row per orbital *)
Definition pun_says (name : str) (k : ospin) (rows : list (list num)) : Prop :=
  one_dot name $".pun" /\ exists content items, disk name = Some content /\ pun_file N items content /\ last_coefs N k items rows.

(** what a log file says: the energies of a spin (occupied ones first), the
    coordinates, the number of basis functions of every atom (none if there is
    no population analysis) *)
Definition is_beta (k : ospin) : bool := match k with SAlpha => false | SBeta => true end.
Record log_says (name : str) (k : ospin) (items : list (item N)) (energies : list num) (occupied : Z)
    (points : list (num * num * num)) (basis : list Z) : Prop := {
  ls_name : one_dot name $".log";
  ls_file : exists content, disk name = Some content /\ log_file N items content;
  ls_energies : exists ls values, last_item N (is_eigenvalues N (is_beta k)) items (Eigenvalues N (is_beta k) ls values) /\
    energies = concat (map snd values) /\ occupied = Z.of_nat (length (concat (map snd (filter fst values))));
  ls_coords : exists h a b rows e, last_item N (is_coordinates N) items (Coordinates N h a b rows e points);
  ls_basis : (exists h a ls e atoms, In (Population N h a ls e atoms) items /\
      (forall h' a' ls' e' atoms', In (Population N h' a' ls' e' atoms') items -> same_basis N atoms atoms' /\ distinct_labels N atoms') /\
      basis = map (fun atom => Z.of_nat (length (snd atom))) atoms) \/
    ((forall it, In it items -> ~ is_population N it) /\ basis = []) }.
Definition overlap_says (items : list (item N)) (n : Z) (v : Z -> Z -> num) : Prop :=
  exists h ls after, last_item N (is_overlaps N) items (Overlaps N h ls after n v).

(** element (i, j) of a list of rows, element i of a list, coordinate j of atom i *)
Definition table (rows : list (list num)) (i j : Z) : num := nth (Z.to_nat (j - 1)) (nth (Z.to_nat (i - 1)) rows []) (n_zero N).
Definition entry (l : list num) (i : Z) : num := nth (Z.to_nat (i - 1)) l (n_zero N).
Definition position (points : list (num * num * num)) (j i : Z) (_ : Z) : num :=
  table [map (fun p => fst (fst p)) points; map (fun p => snd (fst p)) points; map snd points] j i.
(** the whole matrix from its lower triangle *)
Definition symmetric (v : Z -> Z -> num) (i j : Z) : num := v (Z.max i j) (Z.min i j).
Definition width (rows : list (list num)) : Z := Z.of_nat (length (hd [] rows)).
Definition count {X} (l : list X) : Z := Z.of_nat (length l).

(** the data of the three calculations *)
Record data := mkData {
  coef1 : list (list num); coef2 : list (list num); coefP : list (list num);
  en1 : list num; en2 : list num; enP : list num;
  occ1 : Z; occ2 : Z; occP : Z;
  at1 : list (num * num * num); at2 : list (num * num * num); atP : list (num * num * num);
  ba1 : list Z; ba2 : list Z; baP : list Z;
  size : Z; over : Z -> Z -> num }.

(** the files named in [p] contain [d] *)
Definition contain (p : params) (d : data) : Prop :=
  exists k1 k2 kP i1 i2 iP,
    spin1 p = pspin k1 /\ spin2 p = pspin k2 /\ spinP p = pspin kP /\
    pun_says (pun1 p) k1 (coef1 d) /\ pun_says (pun2 p) k2 (coef2 d) /\ pun_says (punP p) kP (coefP d) /\
    log_says (log1 p) k1 i1 (en1 d) (occ1 d) (at1 d) (ba1 d) /\
    log_says (log2 p) k2 i2 (en2 d) (occ2 d) (at2 d) (ba2 d) /\
    log_says (logP p) kP iP (enP d) (occP d) (atP d) (baP d) /\
    overlap_says iP (size d) (over d).

(** the calculations belong together: one energy per orbital; the basis of the
    dimer is the bases of the monomers (without counterpoise) or the basis of
    each monomer (with it) *)
Record belong (cp : bool) (d : data) : Prop := {
  be_e1 : count (en1 d) = count (coef1 d); be_e2 : count (en2 d) = count (coef2 d); be_eP : count (enP d) = count (coefP d);
  be_wP : width (coefP d) = size d;
  be_w : if cp then width (coef1 d) = size d /\ width (coef2 d) = size d else width (coef1 d) + width (coef2 d) = size d;
  be_max : count (coefP d) * count (coefP d) <= INT_MAX /\ 3 * count (at1 d) <= INT_MAX /\ 3 * count (at2 d) <= INT_MAX /\ 3 * count (atP d) <= INT_MAX }.

(** ** What the readers hold, whatever the files look like *)
Record reading := mkReading {
  m_1 : mat num; m_2 : mat num; m_P : mat num; m_S : mat num;      (* coefficients, overlap *)
  e_1 : list num; e_2 : list num; e_P : list num; h_1 : Z; h_2 : Z; (* energies, number of occupied orbitals *)
  x_1 : list (list num); x_2 : list (list num); x_P : list (list num); (* coordinates *)
  b_1 : list Z; b_2 : list Z; b_P : list Z }.                      (* basis functions of every atom *)
(** the readers opened on the six files of [p] succeed and hold [R] for the requested spins *)
Definition readers_hold (fuel : nat) (p : params) (R : reading) : Prop :=
  exists pr1 pr2 prP lr1 lr2 lrP,
    open_pun N disk fuel (pun1 p) = Ok pr1 /\ open_pun N disk fuel (pun2 p) = Ok pr2 /\ open_pun N disk fuel (punP p) = Ok prP /\
    open_log N disk fuel (log1 p) = Ok lr1 /\ open_log N disk fuel (log2 p) = Ok lr2 /\ open_log N disk fuel (logP p) = Ok lrP /\
    getCoefsMatrix N pr1 (spin1 p) = Ok (m_1 R) /\ getCoefsMatrix N pr2 (spin2 p) = Ok (m_2 R) /\ getCoefsMatrix N prP (spinP p) = Ok (m_P R) /\
    getOverlapMatrix N lrP = Ok (m_S R) /\
    getOE N lr1 (spin1 p) = Ok (e_1 R) /\ getOE N lr2 (spin2 p) = Ok (e_2 R) /\ getOE N lrP (spinP p) = Ok (e_P R) /\
    getHOMOLevel N lr1 (spin1 p) = Ok (h_1 R) /\ getHOMOLevel N lr2 (spin2 p) = Ok (h_2 R) /\
    getCoords N lr1 = x_1 R /\ getCoords N lr2 = x_2 R /\ getCoords N lrP = x_P R /\
    getBasisFuncCount N lr1 = b_1 R /\ getBasisFuncCount N lr2 = b_2 R /\ getBasisFuncCount N lrP = b_P R.
(** three lists of [n] numbers *)
Definition three (x : list (list num)) (n : Z) : Prop := exists xs ys zs, x = [xs; ys; zs] /\ count xs = n /\ count ys = n /\ count zs = n /\ 3 * n <= INT_MAX.
Definition place (x : list (list num)) (j i : Z) (_ : Z) : num := table x j i.
(** the matrices have the elements [a] [b] [fP] [fS], and their sizes agree *)
Record agree (cp : bool) (R : reading) (n1 n2 n : Z) (a b fP fS : Z -> Z -> num) : Prop := {
  ag_1 : denotes (m_1 R) (count (e_1 R)) n1 1 (fun r c _ => a r c);
  ag_2 : denotes (m_2 R) (count (e_2 R)) n2 1 (fun r c _ => b r c);
  ag_P : denotes (m_P R) (count (e_P R)) n 1 (fun r c _ => fP r c);
  ag_S : denotes (m_S R) n n 1 (fun r c _ => fS r c);
  ag_h : 0 <= h_1 R <= count (e_1 R) /\ 0 <= h_2 R <= count (e_2 R);
  ag_pos : 1 <= n1 /\ 1 <= n2 /\ 1 <= count (e_P R) /\ count (e_P R) * count (e_P R) <= INT_MAX;
  ag_n : if cp then n1 = n /\ n2 = n else n1 + n2 = n }.

(** the value: monomer coefficients [f1] [f2], dimer coefficients [fP] and overlap [fS] *)
Definition J_of_job (A : arith num) (p : params) (d : data) (f2 fP fS : Z -> Z -> num) (r1 r2 : Z) : num :=
  J_value A (counterPoise p) (width (coef1 d)) (size d) (count (coefP d)) (table (coef1 d)) f2 fP fS (entry (enP d)) r1 r2.
(** the same for anything made of the four numbers J_ab, e_a, e_b, S_ab *)
Definition numbers_of_job {X} (A : arith num) (f : num -> num -> num -> num -> X) (p : params) (d : data) (f2 fP fS : Z -> Z -> num) (r1 r2 : Z) : X :=
  numbers_value A f (counterPoise p) (width (coef1 d)) (size d) (count (coefP d)) (table (coef1 d)) f2 fP fS (entry (enP d)) r1 r2.
(** the rows asked for *)
Definition rows_asked (p : params) (d : data) (r1 r2 : Z) : Prop :=
  orbital_row (count (en1 d)) (occ1 d) (orb_type1 p) (orb_num1 p) = Some r1 /\
  orbital_row (count (en2 d)) (occ2 d) (orb_type2 p) (orb_num2 p) = Some r2.
End Files.
