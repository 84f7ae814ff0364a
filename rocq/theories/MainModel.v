(** * Model of src/tools/main.cpp

    Parsing, reading and computing, in the order of main.cpp:29-175.  What is
    printed is in [main_output] below, except the log messages.  The objects allocated in lines 82-106 are never freed or
    written through again, so matrices are passed by value. *)
From Verif Require Export MatrixModel QcModel.
From Verif Require Export ParserModel ReaderModel.
From Verif Require Export StrModel.
Open Scope Z_scope.

Section Main.
Context (E : env) (N : nums) (A : arith (num N)).
(** [lab]: double_tos with 4 decimals (see FloatModel.v); [disk]: the contents of the files *)
Context (lab : num N -> str) (disk : str -> option str).

(** main.cpp:53-61, three times: [PunReader r(name); r.read();] *)
Definition open_pun (fuel : nat) (name : str) : outcome (PunReader N) :=
  r <- PunReader_new N name ;; pun_read N disk fuel r.
(** main.cpp:65-73, three times *)
Definition open_log (fuel : nat) (name : str) : outcome (LogReader N) :=
  r <- LogReader_new N name ;; log_read N disk fuel r.

(** what is made of the request, of "the basis functions were put in order"
    and of the four numbers J_ab, e_a, e_b, S_ab (see QcModel.v) *)
Context {R : Type} (finish : params -> bool -> num N -> num N -> num N -> num N -> R).

(** main.cpp:81-174: from the readers to the end of calcJ.  The maps of
    lines 160-165 are written as association lists. *)
Definition compute_with (fuel : nat) (par : params) (pr_P pr_1 pr_2 : PunReader N) (lr_P lr_1 lr_2 : LogReader N) : outcome R :=
  mat_S <- getOverlapMatrix N lr_P ;;
  mat_P_Coef <- getCoefsMatrix N pr_P (spinP par) ;;
  vec_P_OE <- getOE N lr_P (spinP par) ;;
  mat_P_OE <- Matrix_of_vec vec_P_OE ;;
  HOMO1 <- getHOMOLevel N lr_1 (spin1 par) ;;
  mat_1_Coef <- getCoefsMatrix N pr_1 (spin1 par) ;;
  vec_1_OE <- getOE N lr_1 (spin1 par) ;;
  mat_1_OE <- Matrix_of_vec vec_1_OE ;;
  HOMO2 <- getHOMOLevel N lr_2 (spin2 par) ;;
  mat_2_Coef <- getCoefsMatrix N pr_2 (spin2 par) ;;
  vec_2_OE <- getOE N lr_2 (spin2 par) ;;
  mat_2_OE <- Matrix_of_vec vec_2_OE ;;
  coord_P_mat <- Matrix_of_vecs (getCoords N lr_P) ;;
  coord_1_mat <- Matrix_of_vecs (getCoords N lr_1) ;;
  coord_2_mat <- Matrix_of_vecs (getCoords N lr_2) ;;
  let basis_P := getBasisFuncCount N lr_P in
  let basis_1 := getBasisFuncCount N lr_1 in
  let basis_2 := getBasisFuncCount N lr_2 in
  tc <- TransferComplex mat_1_Coef mat_2_Coef mat_P_Coef (MatrixModel.rows mat_1_OE, HOMO1) (MatrixModel.rows mat_2_OE, HOMO2)
          mat_S mat_P_OE (counterPoise par) ;;
  tc <- (if negb (length basis_1 =? 0)%nat && negb (length basis_2 =? 0)%nat && negb (length basis_P =? 0)%nat
         then tc_unscramble A lab fuel tc coord_1_mat coord_2_mat coord_P_mat basis_P basis_2
         else Ok tc) ;;
  calcJ_with A (finish par (tc_unscrambled tc)) tc [(sMon1, orb_type1 par); (sMon2, orb_type2 par)] [(sMon1, orb_num1 par); (sMon2, orb_num2 par)].

(** main.cpp:51-73 *)
Definition run_job_with (fuel : nat) (par : params) : outcome R :=
  pr_P <- open_pun fuel (punP par) ;;
  pr_1 <- open_pun fuel (pun1 par) ;;
  pr_2 <- open_pun fuel (pun2 par) ;;
  lr_P <- open_log fuel (logP par) ;;
  lr_1 <- open_log fuel (log1 par) ;;
  lr_2 <- open_log fuel (log2 par) ;;
  compute_with fuel par pr_P pr_1 pr_2 lr_P lr_1 lr_2.

(** main.cpp:29-175 *)
Definition main_with (fuel : nat) (argv : list str) : outcome R :=
  ArgPars <- prepareParser E ;;
  ArgPars <- parse argv ArgPars ;;
  par <- prepareParameters ArgPars ;;
  run_job_with fuel par.
End Main.

(** the number calcJ returns (main.cpp:170 drops it; see [main_output]) *)
Definition J_of_run {N} (A : arith (num N)) (_ : params) (_ : bool) : num N -> num N -> num N -> num N -> num N := J_eff A.
(** main.cpp:22-176: the number that is printed *)
Definition main (E : env) (N : nums) (A : arith (num N)) (lab : num N -> str) (disk : str -> option str) (fuel : nat) (argv : list str) : outcome (num N) :=
  main_with E N A lab disk (J_of_run A) fuel argv.

(** ** Output *)
(** main.cpp:138-146 (= 149-158): what is printed after "Orbital " *)
Definition orbital_text (ty : str) (n : Z) : str :=
  if n =? 0 then ty else if 0 <? n then ty ++ $"+" ++ dec n else ty ++ dec n.
(** main.cpp:136-158: the echo of the request *)
Definition echo (par : params) : list str :=
  [$"Dimer     Spin " ++ spinP par;
   $"Monomer 1 Spin " ++ spin1 par ++ $" Orbital " ++ orbital_text (orb_type1 par) (orb_num1 par);
   $"Monomer 2 Spin " ++ spin2 par ++ $" Orbital " ++ orbital_text (orb_type2 par) (orb_num2 par)].
(** main.cpp:42-47 *)
Definition echo_files (par : params) : list str :=
  [$"log file for first monomer is:      " ++ log1 par;
   $"log file for second monomer is:     " ++ log2 par;
   $"log file for dimer is:              " ++ logP par;
   $"pun file for the first monomer is:  " ++ pun1 par;
   $"pun file for the second monomer is: " ++ pun2 par;
   $"pun file for the dimer is:          " ++ punP par].

Section Output.
(** [pr]: [cout << double]; [h]: hartreeToeV (constants.hpp:4); [version]: lines 31-32 *)
Context (N : nums) (A : arith (num N)) (pr : num N -> str) (h : num N) (version : str).
(** qc_functions.cpp:111-115 *)
Definition report (J_ab e_a e_b S_ab : num N) : list str :=
  [$"J_ab  " ++ pr (a_mul A J_ab h) ++ $" eV";
   $"e_a   " ++ pr (a_mul A e_a h) ++ $" eV";
   $"e_b   " ++ pr (a_mul A e_b h) ++ $" eV";
   $"S_ab  " ++ pr S_ab;
   $"J_eff " ++ pr (a_mul A (J_eff A J_ab e_a e_b S_ab) h) ++ $" eV"].
(** qc_functions.cpp:679-684 *)
Definition warning : str :=
  $"WARNING unable to automatically line up basis functions of monomers with dimers, you better make sure they correctly line up or run the calculations again with the correct flag pop=full".
(** the lines on standard output and on standard error of a run that ends normally (main.cpp:30-32, 42-47, 135-158) *)
Definition lines_of_run (par : params) (unscrambled : bool) (J_ab e_a e_b S_ab : num N) : list str * list str :=
  ([[]; $"Running calc_J VERSION " ++ version] ++ echo_files par ++ [[]] ++ echo par ++ report J_ab e_a e_b S_ab,
   if unscrambled then [] else [warning]).
(** main.cpp:22-176: everything that is printed *)
Definition main_output (E : env) (lab : num N -> str) (disk : str -> option str) (fuel : nat) (argv : list str) : outcome (list str * list str) :=
  main_with E N A lab disk lines_of_run fuel argv.
End Output.
