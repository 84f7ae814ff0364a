(** * Model of src/libcatnip/qc_functions.cpp

    Blocks in [list<Matrix *>] are modelled by value: every block is a fresh
    object owned by its list, only the pointers are exchanged, no block is
    written after it has been filled.  Logging and [cout]/[cerr] output are not
    modelled.  Ownership is not modelled (the code leaks). *)
From Verif Require Export MatrixModel MatrixSpec.
Open Scope Z_scope.

(** qc_functions.cpp:417-575: the direction passed to splitMatrixIntoList and merge *)
Definition tagColumns : str := $"Columns".
(** the other direction *)
Definition tagRows : str := $"Rows".

(** qc_functions.cpp:257-262 and the twins at 270, 292, 314: the iterator pair
    (list, position).  [find_second was l pos] is std::find_if from [pos]: the
    first index >= pos whose [second] equals [was], or [length l] (end). *)
Fixpoint find_second (was : Z) (l : list (Z * Z)) (pos : nat) : nat :=
  match l with
  | [] => O
  | p :: t => match pos with
              | O => if was =? snd p then O else S (find_second was t O)
              | S pos' => S (find_second was t pos')
              end
  end.

(** qc_functions.cpp:262-269 (= 271-278, 294-301, 316-323): the while loop; the
    iterator is not advanced after a hit.  Fuel counts iterations. *)
Fixpoint retarget (fuel : nat) (was is : Z) (l : list (Z * Z)) (pos : nat)
  : outcome (list (Z * Z)) :=
  match fuel with
  | O => NoFuel
  | S fuel' =>
    if (pos =? length l)%nat then Ok l
    else
      let pos' := find_second was l pos in
      match nth_error l pos' with
      | Some p => retarget fuel' was is (upd l pos' (fst p, is)) pos'
      | None => retarget fuel' was is l pos'
      end
  end.

(** element an iterator of a vector points to; the loops below stay inside *)
Definition pair_at (l : list (Z * Z)) (i : Z) : outcome (Z * Z) :=
  match nth_error l (Z.to_nat (i - 1)) with Some p => Ok p | None => Undef BadIterator end.

(** qc_functions.cpp:307-326 *)
Definition refreshSwapOrder1 (fuel : nat) (A : list (Z * Z)) : outcome (list (Z * Z)) :=
  for_up 1 (Z.of_nat (length A)) (fun i A =>
    pr <- pair_at A i ;;
    retarget fuel (fst pr) (snd pr) A (Z.to_nat i)) A.

(** qc_functions.cpp:241-305; returns (monBmatch, monAmatch) *)
Definition refreshSwapOrder2 (fuel : nat) (B A : list (Z * Z))
  : outcome (list (Z * Z) * list (Z * Z)) :=
  BA <- for_up 1 (Z.of_nat (length B)) (fun i BA =>
    pr <- pair_at (fst BA) i ;;
    B' <- retarget fuel (fst pr) (snd pr) (fst BA) (Z.to_nat i) ;;
    A' <- retarget fuel (fst pr) (snd pr) (snd BA) 0 ;;
    Ok (B', A')) (B, A) ;;
  A' <- for_up 1 (Z.of_nat (length (snd BA))) (fun i A =>
    pr <- pair_at A i ;;
    if fst pr =? snd pr then Ok A
    else retarget fuel (fst pr) (snd pr) A (Z.to_nat i)) (snd BA) ;;
  Ok (fst BA, A').

Section Blocks.
Context {T : Type}.
Variable zero : T.

(** dereferenced next(l.begin(), k-1) of a std::list: stepping outside is undefined *)
Definition list_at {X} (l : list X) (k : Z) : outcome X :=
  if k <? 1 then Undef BadIterator
  else match nth_error l (Z.to_nat (k - 1)) with Some x => Ok x | None => Undef BadIterator end.
(** assignment through such an iterator *)
Definition list_put {X} (l : list X) (k : Z) (x : X) : outcome (list X) :=
  y <- list_at l k ;; Ok (upd l (Z.to_nat (k - 1)) x).

(** qc_functions.cpp:335-340 (= 343-348, 356-361) *)
Definition swap_blocks {X} (p : Z * Z) (l : list X) : outcome (list X) :=
  if fst p =? snd p then Ok l
  else
    temp <- list_at l (fst p) ;;
    y <- list_at l (snd p) ;;
    l1 <- list_put l (fst p) y ;;
    list_put l1 (snd p) temp.

(** qc_functions.cpp:352-364 *)
Definition updateSwapLists1 {X} (A : list (Z * Z)) (l : list X) : outcome (list X) :=
  for_each A swap_blocks l.
(** qc_functions.cpp:330-351 *)
Definition updateSwapLists2 {X} (B A : list (Z * Z)) (l : list X) : outcome (list X) :=
  l' <- for_each B swap_blocks l ;; for_each A swap_blocks l'.

(** qc_functions.cpp:139-175 *)
Definition splitMatrixIntoList (dims : list Z) (m : mat T) (tag : str)
  : outcome (list (mat T)) :=
  if str_eqb tag tagColumns then
    s <- for_up 1 (Z.of_nat (length dims)) (fun i s =>
      d <- vat dims (i - 1) ;;
      n <- Matrix_new2 zero (rows m) d ;;
      n' <- for_up 1 (rows m) (fun k n => for_up 1 d (fun j n =>
              c <- iadd (fst s) j ;; v <- get_elem2 m k c ;; set_elem2 v k j n) n) n ;;
      c' <- iadd (fst s) d ;;
      Ok (c', snd s ++ [n'])) (0, []) ;;
    Ok (snd s)
  else if str_eqb tag tagRows then
    s <- for_up 1 (Z.of_nat (length dims)) (fun i s =>
      d <- vat dims (i - 1) ;;
      n <- Matrix_new2 zero d (cols m) ;;
      n' <- for_up 1 (cols m) (fun k n => for_up 1 d (fun j n =>
              r <- iadd (fst s) j ;; v <- get_elem2 m r k ;; set_elem2 v j k n) n) n ;;
      r' <- iadd (fst s) d ;;
      Ok (r', snd s ++ [n'])) (0, []) ;;
    Ok (snd s)
  else Throw InvalidArgument.

(** qc_functions.cpp:177-180 *)
Definition splitCoefsUpByAtoms := splitMatrixIntoList.

(** qc_functions.cpp:366-408; the local counters [row]/[col] that run along the
    block (376, 391) are the loop index itself: [row] = i resp. [col] = j. *)
Definition mergeListOfMatrices (l : list (mat T)) (R C : Z) (tag : str) : outcome (mat T) :=
  full <- Matrix_new2 zero R C ;;
  if str_eqb tag tagColumns then
    s <- for_each l (fun b s =>
      if C <? fst s then Throw RuntimeError else
      full' <- for_up 1 (rows b) (fun i full =>
        if R <? i then Throw RuntimeError else
        for_up 1 (cols b) (fun j full =>
          v <- get_elem2 b i j ;; c <- iadd j (fst s) ;; set_elem2 v i c full) full) (snd s) ;;
      c' <- iadd (fst s) (cols b) ;;
      Ok (c', full')) (0, full) ;;
    Ok (snd s)
  else if str_eqb tag tagRows then
    s <- for_each l (fun b s =>
      if R <? fst s then Throw RuntimeError else
      full' <- for_up 1 (cols b) (fun j full =>
        if C <? j then Throw RuntimeError else
        for_up 1 (rows b) (fun i full =>
          v <- get_elem2 b i j ;; r <- iadd (fst s) i ;; set_elem2 v r j full) full) (snd s) ;;
      r' <- iadd (fst s) (rows b) ;;
      Ok (r', full')) (0, full) ;;
    Ok (snd s)
  else Throw InvalidArgument.

(** qc_functions.cpp:411-414 *)
Definition createNewMatrix := mergeListOfMatrices.

(** qc_functions.cpp:435-444: pairs (i + shift, match(i)), i = 1, 2, ... *)
Fixpoint number_from (k : Z) (m : list Z) : list (Z * Z) :=
  match m with [] => [] | x :: t => (k, x) :: number_from (k + 1) t end.
(** qc_functions.cpp:435-439 *)
Definition pairsA (mA : list Z) : list (Z * Z) := number_from 1 mA.
(** qc_functions.cpp:440-444 *)
Definition pairsB (mA mB : list Z) : list (Z * Z) :=
  number_from (1 + Z.of_nat (length mA)) mB.

(** qc_functions.cpp:417-451 and one half of 486-534 *)
Definition unscramble2 (fuel : nat) (mA mB basis : list Z) (m : mat T) (tag : str) : outcome (mat T) :=
  blocks <- splitCoefsUpByAtoms basis m tag ;;
  BA <- refreshSwapOrder2 fuel (pairsB mA mB) (pairsA mA) ;;
  blocks' <- updateSwapLists2 (fst BA) (snd BA) blocks ;;
  createNewMatrix blocks' (rows m) (cols m) tag.
(** qc_functions.cpp:417-451 *)
Definition unscramble_Coef2 fuel mA mB basis m := unscramble2 fuel mA mB basis m tagColumns.

(** qc_functions.cpp:454-482 and one half of 539-575 *)
Definition unscramble1 (fuel : nat) (mA basis : list Z) (m : mat T) (tag : str) : outcome (mat T) :=
  blocks <- splitCoefsUpByAtoms basis m tag ;;
  A <- refreshSwapOrder1 fuel (pairsA mA) ;;
  blocks' <- updateSwapLists1 A blocks ;;
  createNewMatrix blocks' (rows m) (cols m) tag.
(** qc_functions.cpp:454-482 *)
Definition unscramble_Coef1 fuel mA basis m := unscramble1 fuel mA basis m tagColumns.

(** qc_functions.cpp:486-534 *)
Definition unscramble_S2 (fuel : nat) (mA mB basis : list Z) (S : mat T) : outcome (mat T) :=
  S1 <- unscramble2 fuel mA mB basis S tagColumns ;;
  unscramble2 fuel mA mB basis S1 tagRows.
(** qc_functions.cpp:539-575 *)
Definition unscramble_S1 (fuel : nat) (mA basis : list Z) (S : mat T) : outcome (mat T) :=
  S1 <- unscramble1 fuel mA basis S tagColumns ;;
  unscramble1 fuel mA basis S1 tagRows.
End Blocks.

(** ** Transfer integral *)
Section Transfer.
Context {T : Type}.
Variable A : arith T.
Let zero := a_zero A.

(** qc_functions.cpp:103-109 on the four numbers *)
Definition J_eff (J_ab e_a e_b S_ab : T) : T :=
  a_div A (a_sub A J_ab (a_mul A (a_mul A (a_div A (a_one A) (a_two A)) (a_add A e_b e_a)) S_ab))
          (a_sub A (a_one A) (a_pow2 A S_ab)).

(** qc_functions.cpp:60-118.  [Matrix zetaA; zetaA = ...] is a default
    constructed matrix followed by operator=.  [finish] is applied to the four
    numbers J_ab, e_a, e_b, S_ab of lines 103-106: with [J_eff] below it is the
    value returned (108-109, 117), with the report of MainModel.v it is what
    lines 111-115 print. *)
Definition transfer_with {R} (finish : T -> T -> T -> T -> R) (m1 m2 P S OE : mat T) (cp : bool) : outcome R :=
  m1i <- invert zero m1 ;;
  m2i <- invert zero m2 ;;
  Pi <- invert zero P ;;
  zA0 <- Matrix_new0 zero ;;
  zB0 <- Matrix_new0 zero ;;
  zz <- (if cp then
           zA <- assign zero zA0 m1i ;; zB <- assign zero zB0 m2i ;; Ok (zA, zB)
         else
           zerosA <- Matrix_new3 zero (rows m1i) 1 (shel m1i) ;;
           zerosB <- Matrix_new3 zero (rows m2i) 1 (shel m2i) ;;
           ca <- Matrix_concatenate_rows zero m1i zerosB ;; zA <- assign zero zA0 ca ;;
           cb <- Matrix_concatenate_rows zero zerosA m2i ;; zB <- assign zero zB0 cb ;;
           Ok (zA, zB)) ;;
  zAi <- invert zero (fst zz) ;;
  zBi <- invert zero (snd zz) ;;
  Inter <- mat_mul A S Pi ;;
  gA <- mat_mul A zAi Inter ;;
  gB <- mat_mul A zBi Inter ;;
  gAi <- invert zero gA ;;
  gBi <- invert zero gB ;;
  SAB <- mat_mul A gB gAi ;;
  En <- Matrix_diag zero OE ;;
  EgA <- mat_mul A En gAi ;; JAB <- mat_mul A gB EgA ;;
  EgB <- mat_mul A En gBi ;; eB <- mat_mul A gB EgB ;;
  EgA' <- mat_mul A En gAi ;; eA <- mat_mul A gA EgA' ;;
  J_ab <- get_elem2 JAB 1 1 ;;
  e_b <- get_elem2 eB 1 1 ;;
  e_a <- get_elem2 eA 1 1 ;;
  S_ab <- get_elem2 SAB 1 1 ;;
  Ok (finish J_ab e_a e_b S_ab).
(** the value returned *)
Definition calculate_transfer_integral (m1 m2 P S OE : mat T) (cp : bool) : outcome T := transfer_with J_eff m1 m2 P S OE cp.

(** qc_functions.hpp:13-27.  Pointers to matrices are modelled by value: the
    class never writes through them. *)
Record TC := mkTC {
  tc_1 : mat T; tc_2 : mat T; tc_P : mat T;
  tc_orbs1 : Z * Z; tc_orbs2 : Z * Z;   (* (number of MOs, HOMO) *)
  tc_S : mat T; tc_OE : mat T;
  tc_unscrambled : bool; tc_cp : bool }.

(** qc_functions.cpp:581-624 *)
Definition TransferComplex (m1 m2 P : mat T) (o1 o2 : Z * Z) (S OE : mat T) (cp : bool) : outcome TC :=
  if negb (cols S =? cols P) then Throw InvalidArgument else
  (if cp then
     if negb (cols m1 =? cols P) then Throw InvalidArgument
     else if negb (cols m2 =? cols P) then Throw InvalidArgument
     else Ok tt
   else
     total <- iadd (cols m1) (cols m2) ;;
     if cols P <? total then Throw InvalidArgument else Ok tt) ;;;
  Ok (mkTC m1 m2 P o1 o2 S OE false cp).

(** qc_functions.cpp:626-674; [lab] is the text a coordinate is compared by
    (double_tos with 4 decimals), see MatrixModel.v [matchCol]. *)
Definition tc_unscramble (lab : T -> str) (fuel : nat) (tc : TC)
  (c1 c2 cP : mat T) (basisP basis2 : list Z) : outcome TC :=
  if tc_cp tc then
    m12 <- matchCol lab str_eqb c1 c2 ;;
    u2 <- unscramble_Coef1 zero fuel m12 basis2 (tc_2 tc) ;;
    m1P <- matchCol lab str_eqb c1 cP ;;
    uP <- unscramble_Coef1 zero fuel m1P basisP (tc_P tc) ;;
    uS <- unscramble_S1 zero fuel m1P basisP (tc_S tc) ;;
    Ok (mkTC (tc_1 tc) u2 uP (tc_orbs1 tc) (tc_orbs2 tc) uS (tc_OE tc) true true)
  else
    m1P <- matchCol lab str_eqb c1 cP ;;
    m2P <- matchCol lab str_eqb c2 cP ;;
    uP <- unscramble_Coef2 zero fuel m1P m2P basisP (tc_P tc) ;;
    uS <- unscramble_S2 zero fuel m1P m2P basisP (tc_S tc) ;;
    Ok (mkTC (tc_1 tc) (tc_2 tc) uP (tc_orbs1 tc) (tc_orbs2 tc) uS (tc_OE tc) true false).

(** std::map<string,V>::at on an association list with unique keys *)
Fixpoint map_at {V} (m : list (str * V)) (k : str) : outcome V :=
  match m with
  | [] => Throw OutOfRange
  | (k', v) :: t => if str_eqb k k' then Ok v else map_at t k
  end.

(** qc_functions.cpp:692, 728 *)
Definition sHOMO : str := $"HOMO".
(** qc_functions.cpp:707 *)
Definition sLUMO : str := $"LUMO".
(** qc_functions.cpp:690-691 *)
Definition sMon1 : str := $"mon1".
(** qc_functions.cpp:726-727 *)
Definition sMon2 : str := $"mon2".

(** qc_functions.cpp:690-724 for monomer 1, 726-759 for monomer 2 (same text
    with Orbs2, mat_2_Coef, mat2coef): the coefficient row of one monomer *)
Definition select_row (m coef0 : mat T) (orbs : Z * Z) (ty : str) (MO : Z) : outcome (mat T) :=
  if str_eqb ty sHOMO then
    if 0 <? MO then Throw InvalidArgument else
    neg <- imul (-1) (snd orbs) ;;
    if MO <=? neg then Throw InvalidArgument else
    r <- iadd (snd orbs) MO ;; row <- getRow zero m r ;; assign zero coef0 row
  else if str_eqb ty sLUMO then
    if MO <? 0 then Throw InvalidArgument else
    allowed <- isub (fst orbs) (snd orbs) ;;
    if allowed <=? MO then Throw InvalidArgument else
    r0 <- iadd (snd orbs) MO ;; r <- iadd r0 1 ;; row <- getRow zero m r ;; assign zero coef0 row
  else Throw InvalidArgument.

(** qc_functions.cpp:676-763 ([finish] as above; the warning of 679-684 is in MainModel.v) *)
Definition calcJ_with {R} (finish : T -> T -> T -> T -> R) (tc : TC) (otype : list (str * str)) (onum : list (str * Z)) : outcome R :=
  mat1coef <- Matrix_new0 zero ;;
  mat2coef <- Matrix_new0 zero ;;
  ty1 <- map_at otype sMon1 ;;
  mo1 <- map_at onum sMon1 ;;
  c1 <- select_row (tc_1 tc) mat1coef (tc_orbs1 tc) ty1 mo1 ;;
  ty2 <- map_at otype sMon2 ;;
  mo2 <- map_at onum sMon2 ;;
  c2 <- select_row (tc_2 tc) mat2coef (tc_orbs2 tc) ty2 mo2 ;;
  transfer_with finish c1 c2 (tc_P tc) (tc_S tc) (tc_OE tc) (tc_cp tc).
(** qc_functions.cpp:676-763 *)
Definition calcJ (tc : TC) (otype : list (str * str)) (onum : list (str * Z)) : outcome T := calcJ_with J_eff tc otype onum.

(** ** findRank, qc_functions.cpp:21-57

    [srt] stands for std::sort with "smaller energy first": the C++ standard
    does not fix the order of equal energies, so any function may be supplied;
    the theorems assume only that it sorts.  The unordered_map is the list of
    its (rank, (energy, spin)) entries. *)
Inductive spin := Alpha | Beta.
(** qc_functions.cpp:21-57 *)
Definition findRank (srt : list (T * spin) -> list (T * spin)) (a b : mat T)
  : outcome (list (Z * (T * spin))) :=
  ma <- getCol zero a 1 ;;
  all <- for_up 1 (rows ma) (fun i acc => v <- get_elem1 ma i ;; Ok (acc ++ [(v, Alpha)])) [] ;;
  all' <- (if 0 <? cols b then
             mb <- getCol zero b 1 ;;
             for_up 1 (rows mb) (fun i acc => v <- get_elem1 mb i ;; Ok (acc ++ [(v, Beta)])) all
           else Ok all) ;;
  Ok (combine (map Z.of_nat (seq 1 (length (srt all')))) (srt all')).
End Transfer.
