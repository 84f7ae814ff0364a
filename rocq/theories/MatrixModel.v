(** * Model of /repo/src/libcatnip/matrix.hpp and matrix.cpp

    A [Matrix] object is the record of its four data members
    (matrix.hpp:11-14).  The block [elem] points to is the list of its cells; a
    cell is [None] from [new double[n]] until it is written.  The model is a
    value model: member functions that modify [*this] return the new value.
    Sharing of blocks between objects (the implicit copy constructor) is the
    subject of HeapModel.v.  Messages printed before [exit] are omitted.

    Generic in the type [T] of elements (double in the code). *)
From Verif Require Export Outcome Arith.

(** matrix.hpp:11-14. *)
Record mat (T : Type) := mkMat {
  rows : Z;
  cols : Z;
  shel : Z;
  elem : list (option T)
}.
Arguments mkMat {T} _ _ _ _.
Arguments rows {T} _.
Arguments cols {T} _.
Arguments shel {T} _.
Arguments elem {T} _.

Section Matrix.
Context {T : Type}.
Variable zero : T.

(** ** Raw memory *)

(** [new double[n]]: uninitialised cells; a negative count throws. *)
Definition new_cells (n : Z) : outcome (list (option T)) :=
  if n <? 0 then Throw BadAlloc else Ok (repeat None (Z.to_nat n)).

(** [p[k]] as an rvalue: outside the block or indeterminate is undefined. *)
Definition rd (l : list (option T)) (k : Z) : outcome T :=
  if (0 <=? k) && (k <? Z.of_nat (length l)) then
    match nth_error l (Z.to_nat k) with
    | Some (Some v) => Ok v
    | Some None => Undef Uninitialised
    | None => Undef OutOfBounds
    end
  else Undef OutOfBounds.

(** [p[k] = v]. *)
Definition wr (l : list (option T)) (k : Z) (v : T) : outcome (list (option T)) :=
  if (0 <=? k) && (k <? Z.of_nat (length l)) then Ok (upd l (Z.to_nat k) (Some v))
  else Undef OutOfBounds.

(** The index expression [(i-1)*c*s + (j-1)*s + k - 1] with C++ [int]
    evaluation order and overflow checks (matrix.cpp:439-441, and the literal
    copies in the constructors and in resize). *)
Definition flat (c s : Z) (i j k : Z) : outcome Z :=
  a <- isub i 1 ;; b <- imul a c ;; d <- imul b s ;;
  e <- isub j 1 ;; f <- imul e s ;; g <- iadd d f ;;
  h <- iadd g k ;; isub h 1.

(** matrix.cpp:439-441 Matrix::index. *)
Definition index (m : mat T) (r c s : Z) : outcome Z := flat (cols m) (shel m) r c s.

(** [rows * cols * shel] (matrix.cpp:697 total_elem and the allocations). *)
Definition prod3 (r c s : Z) : outcome Z := a <- imul r c ;; imul a s.

(** ** Constructors *)

(** matrix.cpp:241-247. *)
Definition Matrix_new0 : outcome (mat T) :=
  l <- new_cells 1 ;; l' <- wr l 0 zero ;; Ok (mkMat 1 1 1 l').

(** matrix.cpp:249-261 (vector<double>) and 263-275 (vector<int>, elements
    converted by the caller of the model).  The size is assumed to fit in an int. *)
Definition Matrix_of_vec (v : list T) : outcome (mat T) :=
  let n := Z.of_nat (length v) in
  k <- imul n 1 ;;
  l <- new_cells k ;;
  p <- for_each v (fun val (p : Z * list (option T)) =>
         let '(r, l) := p in
         a <- isub r 1 ;; b <- imul a 1 ;; d <- iadd b 1 ;; e <- isub d 1 ;;
         l' <- wr l e val ;; Ok (r + 1, l')) (1, l) ;;
  Ok (mkMat n 1 1 (snd p)).

(** matrix.cpp:277-298 (vector<vector<double>>).  The first of the two
    allocations is leaked; leaks are not modelled. *)
Definition Matrix_of_vecs (vv : list (list T)) : outcome (mat T) :=
  let n := Z.of_nat (length vv) in
  v0 <- vat vv 0 ;;
  let c := Z.of_nat (length v0) in
  k <- imul n c ;;
  l <- new_cells k ;;
  p <- for_each vv (fun v (p : Z * list (option T)) =>
         let '(r, l) := p in
         if negb (Z.of_nat (length v) =? c) then Throw InvalidArgument else
         q <- for_each v (fun val (q : Z * list (option T)) =>
                let '(cc, l) := q in
                a <- isub r 1 ;; b <- imul a c ;; d <- iadd b cc ;; e <- isub d 1 ;;
                l' <- wr l e val ;; Ok (cc + 1, l')) (1, l) ;;
         Ok (r + 1, snd q)) (1, l) ;;
  Ok (mkMat n c 1 (snd p)).

(** matrix.cpp:300-321. *)
Definition Matrix_new1 (r : Z) : outcome (mat T) :=
  if r <? 0 then Exit 1
  else if r =? 0 then Ok (mkMat 0 0 0 [])
  else
    l <- new_cells r ;;
    l' <- for_up 1 r (fun i l => k <- isub i 1 ;; wr l k zero) l ;;
    Ok (mkMat r 1 1 l').

(** matrix.cpp:323-340. *)
Definition Matrix_new2 (r c : Z) : outcome (mat T) :=
  if r <? 1 then Exit 1
  else if c <? 1 then Exit 1
  else
    n <- imul r c ;;
    l <- new_cells n ;;
    l' <- for_up 1 r (fun i l =>
            for_up 1 c (fun j l =>
              a <- isub i 1 ;; b <- imul a c ;; d <- iadd b j ;; e <- isub d 1 ;;
              wr l e zero) l) l ;;
    Ok (mkMat r c 1 l').

(** matrix.cpp:342-364. *)
Definition Matrix_new3 (r c s : Z) : outcome (mat T) :=
  if r <? 1 then Exit 1
  else if c <? 1 then Exit 1
  else if s <? 1 then Exit 1
  else
    n <- prod3 r c s ;;
    l <- new_cells n ;;
    l' <- for_up 1 r (fun i l =>
            for_up 1 c (fun j l =>
              for_up 1 s (fun k l =>
                e <- flat c s i j k ;; wr l e zero) l) l) l ;;
    Ok (mkMat r c s l').

(** ** Element access *)

(** matrix.cpp:609. *)
Definition set_elem0 (v : T) (m : mat T) : outcome (mat T) :=
  l <- wr (elem m) 0 v ;; Ok (mkMat (rows m) (cols m) (shel m) l).

(** matrix.cpp:609-689: the assignment to elem at an index already checked *)
Definition store (v : T) (r c s : Z) (m : mat T) : outcome (mat T) :=
  k <- index m r c s ;; l <- wr (elem m) k v ;;
  Ok (mkMat (rows m) (cols m) (shel m) l).

(** matrix.cpp:611-624. *)
Definition set_elem1 (v : T) (r : Z) (m : mat T) : outcome (mat T) :=
  if rows m <? r then Exit 1 else if r <? 1 then Exit 1 else store v r 1 1 m.

(** matrix.cpp:626-651. *)
Definition set_elem2 (v : T) (r c : Z) (m : mat T) : outcome (mat T) :=
  if rows m <? r then Exit 1 else if r <? 1 then Exit 1 else
  if cols m <? c then Exit 1 else if c <? 1 then Exit 1 else store v r c 1 m.

(** matrix.cpp:653-689. *)
Definition set_elem3 (v : T) (r c s : Z) (m : mat T) : outcome (mat T) :=
  if rows m <? r then Exit 1 else if r <? 1 then Exit 1 else
  if cols m <? c then Exit 1 else if c <? 1 then Exit 1 else
  if shel m <? s then Exit 1 else if s <? 1 then Exit 1 else store v r c s m.

(** matrix.cpp:691-695 get_rows, get_cols, get_shel are the projections;
    697 total_elem. *)
Definition total_elem (m : mat T) : outcome Z := prod3 (rows m) (cols m) (shel m).

(** matrix.cpp:699-769: the read of elem at an index already checked *)
Definition load (m : mat T) (r c s : Z) : outcome T :=
  k <- index m r c s ;; rd (elem m) k.

(** matrix.cpp:699. *)
Definition get_elem0 (m : mat T) : outcome T := rd (elem m) 0.

(** matrix.cpp:701-712. *)
Definition get_elem1 (m : mat T) (r : Z) : outcome T :=
  if r <? 1 then Exit 1 else if rows m <? r then Exit 1 else load m r 1 1.

(** matrix.cpp:714-733. *)
Definition get_elem2 (m : mat T) (r c : Z) : outcome T :=
  if r <? 1 then Exit 1 else if rows m <? r then Exit 1 else
  if c <? 1 then Exit 1 else if cols m <? c then Exit 1 else load m r c 1.

(** matrix.cpp:739-769. *)
Definition get_elem3 (m : mat T) (r c s : Z) : outcome T :=
  if r <? 1 then Exit 1 else if rows m <? r then Exit 1 else
  if c <? 1 then Exit 1 else if cols m <? c then Exit 1 else
  if s <? 1 then Exit 1 else if shel m <? s then Exit 1 else load m r c s.

(** matrix.cpp:512-518 (no bounds check). *)
Definition get_col (m : mat T) (c : Z) : outcome (list T) :=
  for_up 1 (rows m) (fun i acc => v <- load m i c 1 ;; Ok (acc ++ [v])) [].

(** matrix.cpp:520-526 (no bounds check). *)
Definition get_row (m : mat T) (r : Z) : outcome (list T) :=
  for_up 1 (cols m) (fun i acc => v <- load m r i 1 ;; Ok (acc ++ [v])) [].

(** ** Shape changes *)

(** matrix.cpp:366-426 resize.  The four branches of the loop nest are kept. *)
Definition resize (r c : Z) (m : mat T) : outcome (mat T) :=
  if r <? 1 then Exit 1 else if c <? 1 then Exit 1 else
  n <- imul r c ;;
  temp <- new_cells n ;;
  let put (i j : Z) (v : T) (l : list (option T)) := e <- flat c 1 i j 1 ;; wr l e v in
  let old (i j : Z) := load m i j 1 in
  temp' <-
    (if r <=? rows m then
       for_up 1 r (fun i l =>
         if c <=? cols m then
           for_up 1 c (fun j l => v <- old i j ;; put i j v l) l
         else
           for_up 1 c (fun j l =>
             if j <=? cols m then v <- old i j ;; put i j v l else put i j zero l) l) temp
     else
       for_up 1 r (fun i l =>
         if c <=? cols m then
           for_up 1 c (fun j l =>
             if i <=? rows m then v <- old i j ;; put i j v l else put i j zero l) l
         else
           for_up 1 c (fun j l =>
             if (i <=? rows m) && (j <=? cols m)
             then v <- old i j ;; put i j v l else put i j zero l) l) temp) ;;
  Ok (mkMat r c 1 temp').

(** matrix.cpp:428-437 operator=.  [m] is the right-hand side, [this] the old
    value of the left-hand side (self assignment is the case [this = m]: the
    resize to the own shape keeps all values of shelf 1). *)
Definition assign (this m : mat T) : outcome (mat T) :=
  t <- resize (rows m) (cols m) this ;;
  for_up 1 (rows m) (fun i t =>
    for_up 1 (cols m) (fun j t =>
      v <- get_elem2 m i j ;; set_elem2 v i j t) t) t.

(** matrix.cpp:443-456 set_row.  When it throws the object is unchanged (the
    check precedes all writes). *)
Definition set_row (row : list T) (r : Z) (m : mat T) : outcome (mat T) :=
  if negb (cols m =? Z.of_nat (length row)) then Throw InvalidArgument else
  for_up 1 (cols m) (fun j m =>
    if r <=? rows m then v <- vat row (j - 1) ;; store v r j 1 m
    else store zero r j 1 m) m.

(** matrix.cpp:458-470 set_col.  The size check compares with get_cols() as in
    the code.  (When [at] throws half way the C++ object keeps the elements
    written so far; the value model drops it.) *)
Definition set_col (col : list T) (c : Z) (m : mat T) : outcome (mat T) :=
  if negb (cols m =? Z.of_nat (length col)) then Throw InvalidArgument else
  for_up 1 (rows m) (fun i m =>
    if c <=? cols m then v <- vat col (i - 1) ;; store v i c 1 m
    else store zero i c 1 m) m.

(** matrix.cpp:472-510 set_rows.  [index] uses the old dimensions. *)
Definition set_rows (r : Z) (m : mat T) : outcome (mat T) :=
  if r <? 0 then Exit 1
  else if rows m <? r then
    n <- prod3 r (cols m) (shel m) ;;
    temp <- new_cells n ;;
    temp' <- for_up 1 r (fun i l => for_up 1 (cols m) (fun j l =>
               for_up 1 (shel m) (fun k l =>
                 if r <=? rows m
                 then e <- index m i j k ;; v <- load m i j k ;; wr l e v
                 else e <- index m i j k ;; wr l e zero) l) l) temp ;;
    Ok (mkMat r (cols m) (shel m) temp')
  else if r <? rows m then
    n <- prod3 r (cols m) (shel m) ;;
    temp <- new_cells n ;;
    temp' <- for_up 1 r (fun i l => for_up 1 (cols m) (fun j l =>
               for_up 1 (shel m) (fun k l =>
                 e <- index m i j k ;; v <- load m i j k ;; wr l e v) l) l) temp ;;
    Ok (mkMat r (cols m) (shel m) temp')
  else Ok m.

(** matrix.cpp:528-567 set_cols. *)
Definition set_cols (c : Z) (m : mat T) : outcome (mat T) :=
  if c <? 0 then Exit 1
  else if cols m <? c then
    n <- prod3 (rows m) c (shel m) ;;
    temp <- new_cells n ;;
    temp' <- for_up 1 (rows m) (fun i l => for_up 1 c (fun j l =>
               for_up 1 (shel m) (fun k l =>
                 if c <=? cols m
                 then e <- index m i j k ;; v <- load m i j k ;; wr l e v
                 else e <- index m i j k ;; wr l e zero) l) l) temp ;;
    Ok (mkMat (rows m) c (shel m) temp')
  else if c <? cols m then
    n <- prod3 (rows m) c (shel m) ;;
    temp <- new_cells n ;;
    temp' <- for_up 1 (rows m) (fun i l => for_up 1 c (fun j l =>
               for_up 1 (shel m) (fun k l =>
                 e <- index m i j k ;; v <- load m i j k ;; wr l e v) l) l) temp ;;
    Ok (mkMat (rows m) c (shel m) temp')
  else Ok m.

(** matrix.cpp:569-607 set_shel. *)
Definition set_shel (s : Z) (m : mat T) : outcome (mat T) :=
  if s <? 0 then Exit 1
  else if shel m <? s then
    n <- prod3 (rows m) (cols m) s ;;
    temp <- new_cells n ;;
    temp' <- for_up 1 (rows m) (fun i l => for_up 1 (cols m) (fun j l =>
               for_up 1 s (fun k l =>
                 if s <=? shel m
                 then e <- index m i j k ;; v <- load m i j k ;; wr l e v
                 else e <- index m i j k ;; wr l e zero) l) l) temp ;;
    Ok (mkMat (rows m) (cols m) s temp')
  else if s <? shel m then
    n <- prod3 (rows m) (cols m) s ;;
    temp <- new_cells n ;;
    temp' <- for_up 1 (rows m) (fun i l => for_up 1 (cols m) (fun j l =>
               for_up 1 s (fun k l =>
                 e <- index m i j k ;; v <- load m i j k ;; wr l e v) l) l) temp ;;
    Ok (mkMat (rows m) (cols m) s temp')
  else Ok m.

(** ** Rearrangements *)

(** matrix.cpp:771-778. *)
Definition swap_row (r_from r_to : Z) (m : mat T) : outcome (mat T) :=
  if r_from =? r_to then Ok m else
  row_f <- get_row m r_from ;; row_t <- get_row m r_to ;;
  m <- set_row row_f r_to m ;; set_row row_t r_from m.

(** matrix.cpp:780-787. *)
Definition swap_col (c_from c_to : Z) (m : mat T) : outcome (mat T) :=
  if c_from =? c_to then Ok m else
  col_f <- get_col m c_from ;; col_t <- get_col m c_to ;;
  m <- set_col col_f c_to m ;; set_col col_t c_from m.

(** matrix.cpp:789-811. *)
Definition move_row (r_from r_to : Z) (m : mat T) : outcome (mat T) :=
  if r_from =? r_to then Ok m else
  row <- get_row m r_from ;;
  m <- (if r_from <? r_to then
          for_up r_from (r_to - 1) (fun r m =>
            for_up 1 (cols m) (fun c m => v <- get_elem2 m (r + 1) c ;; set_elem2 v r c m) m) m
        else
          for_down r_from (r_to + 1) (fun r m =>
            for_up 1 (cols m) (fun c m => v <- get_elem2 m (r - 1) c ;; set_elem2 v r c m) m) m) ;;
  set_row row r_to m.

(** matrix.cpp:813-835. *)
Definition move_col (c_from c_to : Z) (m : mat T) : outcome (mat T) :=
  if c_from =? c_to then Ok m else
  col <- get_col m c_from ;;
  m <- (if c_from <? c_to then
          for_up c_from (c_to - 1) (fun c m =>
            for_up 1 (rows m) (fun r m => v <- get_elem2 m r (c + 1) ;; set_elem2 v r c m) m) m
        else
          for_down c_from (c_to + 1) (fun c m =>
            for_up 1 (rows m) (fun r m => v <- get_elem2 m r (c - 1) ;; set_elem2 v r c m) m) m) ;;
  set_col col c_to m.

(** matrix.cpp:893-909 invert (a transposition; the heap object is leaked). *)
Definition invert (m : mat T) : outcome (mat T) :=
  if negb (shel m =? 1) then Exit 1 else
  m2 <- Matrix_new2 (cols m) (rows m) ;;
  for_up 1 (rows m) (fun i m2 => for_up 1 (cols m) (fun j m2 =>
    v <- get_elem2 m i j ;; set_elem2 v j i m2) m2) m2.

(** matrix.cpp:911-928. *)
Definition getRow (m : mat T) (R : Z) : outcome (mat T) :=
  if rows m <? R then Exit 1 else
  m2 <- Matrix_new3 1 (cols m) (shel m) ;;
  for_up 1 (cols m) (fun j m2 => for_up 1 (shel m) (fun k m2 =>
    v <- get_elem3 m R j k ;; set_elem3 v 1 j k m2) m2) m2.

(** matrix.cpp:930-946 (allocates get_cols() rows, as in the code). *)
Definition getCol (m : mat T) (C : Z) : outcome (mat T) :=
  if cols m <? C then Exit 1 else
  m2 <- Matrix_new3 (cols m) 1 (shel m) ;;
  for_up 1 (rows m) (fun i m2 => for_up 1 (shel m) (fun k m2 =>
    v <- get_elem3 m i C k ;; set_elem3 v i 1 k m2) m2) m2.

(** ** Free functions *)

(** matrix.cpp:17-48. *)
Definition Matrix_diag (m : mat T) : outcome (mat T) :=
  if (1 <? cols m) && (1 <? rows m) then Throw InvalidArgument
  else if 1 <? shel m then Throw InvalidArgument
  else if rows m <? cols m then
    let len := cols m in
    m2 <- Matrix_new2 len len ;;
    for_up 1 len (fun i m2 => v <- get_elem2 m 1 i ;; set_elem2 v i i m2) m2
  else
    let len := rows m in
    m2 <- Matrix_new2 len len ;;
    for_up 1 len (fun i m2 => v <- get_elem2 m i 1 ;; set_elem2 v i i m2) m2.

(** matrix.cpp:50-69. *)
Definition Matrix_copy (m : mat T) : outcome (mat T) :=
  m2 <- Matrix_new3 (rows m) (cols m) (shel m) ;;
  for_up 1 (rows m) (fun i m2 => for_up 1 (cols m) (fun j m2 =>
    for_up 1 (shel m) (fun k m2 =>
      v <- get_elem3 m i j k ;; set_elem3 v i j k m2) m2) m2) m2.

(** matrix.cpp:71-119. *)
Definition Matrix_concatenate_rows (m1 m2 : mat T) : outcome (mat T) :=
  if negb (cols m1 =? cols m2) then Matrix_new0
  else if negb (shel m1 =? shel m2) then Matrix_new0
  else
    total <- iadd (rows m1) (rows m2) ;;
    m3 <- Matrix_new3 total (cols m1) (shel m1) ;;
    m3 <- for_up 1 (rows m1) (fun i m3 => for_up 1 (cols m1) (fun j m3 =>
            for_up 1 (shel m1) (fun k m3 =>
              v <- get_elem3 m1 i j k ;; set_elem3 v i j k m3) m3) m3) m3 ;;
    for_up 1 (rows m2) (fun i m3 => for_up 1 (cols m2) (fun j m3 =>
      for_up 1 (shel m2) (fun k m3 =>
        v <- get_elem3 m2 i j k ;; set_elem3 v (i + rows m1) j k m3) m3) m3) m3.

(** matrix.cpp:121-169. *)
Definition Matrix_concatenate_cols (m1 m2 : mat T) : outcome (mat T) :=
  if negb (rows m1 =? rows m2) then Matrix_new0
  else if negb (shel m1 =? shel m2) then Matrix_new0
  else
    total <- iadd (cols m1) (cols m2) ;;
    m3 <- Matrix_new3 (rows m1) total (shel m1) ;;
    m3 <- for_up 1 (rows m1) (fun i m3 => for_up 1 (cols m1) (fun j m3 =>
            for_up 1 (shel m1) (fun k m3 =>
              v <- get_elem3 m1 i j k ;; set_elem3 v i j k m3) m3) m3) m3 ;;
    for_up 1 (rows m2) (fun i m3 => for_up 1 (cols m2) (fun j m3 =>
      for_up 1 (shel m2) (fun k m3 =>
        v <- get_elem3 m2 i j k ;; set_elem3 v i (j + cols m1) k m3) m3) m3) m3.

(** ** Matching *)

Section Match.
(** [double_tos(x, sf)] for the given [sf], with string comparison; see
    FloatModel.v for the concrete function. *)
Context {L : Type}.
Variable lab : T -> L.
Variable leqb : L -> L -> bool.

(** The inner loops matrix.cpp:851-858 / 879-886 with [break]: compare the
    components [j, j+1, ...] ([n] of them). *)
Fixpoint same_label (n : nat) (j : Z) (x y : Z -> outcome T) : outcome bool :=
  match n with
  | O => Ok true
  | S n' =>
      a <- x j ;; b <- y j ;;
      if leqb (lab a) (lab b) then same_label n' (j + 1) x y else Ok false
  end.

(** matrix.cpp:837-863. *)
Definition matchRow (this m : mat T) : outcome (list Z) :=
  if negb (shel m =? 1) || negb (shel this =? 1) then Exit 1
  else if negb (cols m =? cols this) then Throw InvalidArgument
  else
    for_up 1 (rows this) (fun i v => for_up 1 (rows m) (fun ii v =>
      ok <- same_label (Z.to_nat (cols this)) 1
              (fun j => get_elem2 this i j) (fun j => get_elem2 m ii j) ;;
      if ok : bool then vat_set v (i - 1) ii else Ok v) v)
      (repeat (-1) (Z.to_nat (rows this))).

(** matrix.cpp:865-891. *)
Definition matchCol (this m : mat T) : outcome (list Z) :=
  if negb (shel m =? 1) || negb (shel this =? 1) then Exit 1
  else if negb (rows m =? rows this) then Throw InvalidArgument
  else
    for_up 1 (cols this) (fun i v => for_up 1 (cols m) (fun ii v =>
      ok <- same_label (Z.to_nat (rows this)) 1
              (fun j => get_elem2 this j i) (fun j => get_elem2 m j ii) ;;
      if ok : bool then vat_set v (i - 1) ii else Ok v) v)
      (repeat (-1) (Z.to_nat (cols this))).
End Match.
End Matrix.

(** matrix.cpp:204-235 operator* ([sum] starts from the literal 0). *)
Definition mat_mul {T} (A : arith T) (m1 m2 : mat T) : outcome (mat T) :=
  if negb (shel m1 =? 1) || negb (shel m2 =? 1) then Exit 1
  else if negb (cols m1 =? rows m2) then Exit 1
  else
    m3 <- Matrix_new2 (a_zero A) (rows m1) (cols m2) ;;
    for_up 1 (rows m1) (fun i m3 => for_up 1 (cols m2) (fun j m3 =>
      sum <- for_up 1 (cols m1) (fun k sum =>
               x <- get_elem2 m1 i k ;; y <- get_elem2 m2 k j ;;
               Ok (a_add A sum (a_mul A x y))) (a_zero A) ;;
      set_elem2 sum i j m3) m3) m3.
