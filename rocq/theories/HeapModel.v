(** * Objects and memory: several Matrix variables sharing one heap

    matrix.hpp:9-75: a [Matrix] object holds three ints and a raw pointer.  The
    class declares neither a copy constructor nor a destructor, so copy
    construction copies the pointer and the end of a scope frees nothing.

    A program is a sequence of declarations and member function calls on named
    variables.  The bodies of the member functions are those of MatrixModel.v,
    run on the cells the object's pointer leads to; what this file adds is
    where the result goes:
    - set_elem, set_row, set_col, swap_row, swap_col, move_row, move_col write
      through [elem] (in place: matrix.cpp:443-470, 609-689, 771-835);
    - resize, set_rows, set_cols, set_shel allocate [temp], fill it, execute
      [delete elem] and store [temp] (matrix.cpp:375, 418-422, 479-490, 494-508,
      535-547, 551-565, 575-587, 591-605); the last three do nothing when the
      size does not change;
    - operator= is resize followed by set_elem (matrix.cpp:428-437).

    Simplifications: [delete elem] on a block from [new double[]] is formally
    undefined; it is modelled as freeing the block.  Blocks allocated and never
    stored (leaks) are not represented.  get_elem_ptr (matrix.cpp:735-737), which
    hands out the raw pointer, is not modelled. *)
From Verif Require Export MatrixModel.

Section Heap.
Context {T : Type}.
Variable A : arith T.
Notation zero := (a_zero A).

(** A variable of type Matrix (matrix.hpp:11-14); [None] is nullptr. *)
Record handle := mkHandle { h_rows : Z; h_cols : Z; h_shel : Z; h_elem : option nat }.

(** Blocks in order of allocation; [None] after it was freed. *)
Definition memory := list (option (list (option T))).

(** the variables of a program and the heap (matrix.hpp: each object holds rows, cols, shel and the pointer elem) *)
Record store_ := mkStore { vars : nat -> option handle; mem : memory }.

(** before the first statement *)
Definition empty_store : store_ := mkStore (fun _ => None) [].

(** a variable gets an object *)
Definition set_var (x : nat) (h : handle) (f : nat -> option handle) : nat -> option handle :=
  fun y => if Nat.eqb y x then Some h else f y.

(** The block a pointer leads to, when it is live. *)
Definition block (M : memory) (p : option nat) : option (list (option T)) :=
  match p with
  | None => None
  | Some k => match nth_error M k with Some b => b | None => None end
  end.

(** The matrix seen through a handle; through a null or dangling pointer no
    cell can be accessed. *)
Definition view (M : memory) (h : handle) : mat T :=
  mkMat (h_rows h) (h_cols h) (h_shel h)
        (match block M (h_elem h) with Some l => l | None => [] end).

(** An access that found no cell because the pointer dangles. *)
Definition dangling (M : memory) (h : handle) : bool :=
  match h_elem h with
  | None => false
  | Some k => match block M (Some k) with Some _ => false | None => true end
  end.
(** an access through a dangling pointer is undefined behaviour *)
Definition uaf {B} (bad : bool) (x : outcome B) : outcome B :=
  match x with
  | Undef OutOfBounds => if bad then Undef UseAfterFree else x
  | _ => x
  end.

(** [delete p]. *)
Definition delete (M : memory) (p : option nat) : outcome memory :=
  match p with
  | None => Ok M
  | Some k => match block M (Some k) with
              | Some _ => Ok (upd M k None)
              | None => Undef DoubleFree
              end
  end.

(** A fresh block holding the cells of [m], and the object owning it. *)
Definition place (M : memory) (m : mat T) : handle * memory :=
  (mkHandle (rows m) (cols m) (shel m) (Some (length M)), M ++ [Some (elem m)]).

(** using a variable that was never constructed is not a C++ program; here an error *)
Definition lookup (st : store_) (x : nat) : outcome handle :=
  match vars st x with Some h => Ok h | None => Undef Uninitialised end.

(** ** Calls *)

Inductive ctor :=
| New0 | OfVec (v : list T) | OfVecs (vv : list (list T))
| New1 (r : Z) | New2 (r c : Z) | New3 (r c s : Z).

(** matrix.cpp:241-364. *)
Definition construct (c : ctor) : outcome (mat T) :=
  match c with
  | New0 => Matrix_new0 zero
  | OfVec v => Matrix_of_vec v
  | OfVecs vv => Matrix_of_vecs vv
  | New1 r => Matrix_new1 zero r
  | New2 r c => Matrix_new2 zero r c
  | New3 r c s => Matrix_new3 zero r c s
  end.

(** Functions returning a new matrix; operands are variables. *)
Inductive func :=
| FCopy (y : nat) | FInvert (y : nat) | FGetRow (y : nat) (r : Z) | FGetCol (y : nat) (c : Z)
| FDiag (y : nat) | FCatRows (y z : nat) | FCatCols (y z : nat) | FMul (y z : nat).

(** matrix.cpp:17-169, 204-235, 893-946. *)
Definition apply_func (st : store_) (f : func) : outcome (mat T) :=
  let arg y k := h <- lookup st y ;; uaf (dangling (mem st) h) (k (view (mem st) h)) in
  let arg2 y z k :=
    h1 <- lookup st y ;; h2 <- lookup st z ;;
    uaf (dangling (mem st) h1 || dangling (mem st) h2)
        (k (view (mem st) h1) (view (mem st) h2)) in
  match f with
  | FCopy y => arg y (Matrix_copy zero)
  | FInvert y => arg y (invert zero)
  | FGetRow y r => arg y (fun m => getRow zero m r)
  | FGetCol y c => arg y (fun m => getCol zero m c)
  | FDiag y => arg y (Matrix_diag zero)
  | FCatRows y z => arg2 y z (Matrix_concatenate_rows zero)
  | FCatCols y z => arg2 y z (Matrix_concatenate_cols zero)
  | FMul y z => arg2 y z (mat_mul A)
  end.

(** The non-const member functions. *)
Inductive change :=
| SetElem0 (v : T) | SetElem1 (v : T) (r : Z) | SetElem2 (v : T) (r c : Z)
| SetElem3 (v : T) (r c s : Z)
| SetRow (row : list T) (r : Z) | SetCol (col : list T) (c : Z)
| SwapRow (a b : Z) | SwapCol (a b : Z) | MoveRow (a b : Z) | MoveCol (a b : Z)
| Resize (r c : Z) | SetRows (r : Z) | SetCols (c : Z) | SetShel (s : Z)
| AssignFrom (y : nat).

(** The in-place functions, as functions on the matrix seen. *)
Definition in_place (ch : change) : option (mat T -> outcome (mat T)) :=
  match ch with
  | SetElem0 v => Some (set_elem0 v)
  | SetElem1 v r => Some (set_elem1 v r)
  | SetElem2 v r c => Some (set_elem2 v r c)
  | SetElem3 v r c s => Some (set_elem3 v r c s)
  | SetRow row r => Some (set_row zero row r)
  | SetCol col c => Some (set_col zero col c)
  | SwapRow a b => Some (swap_row zero a b)
  | SwapCol a b => Some (swap_col zero a b)
  | MoveRow a b => Some (move_row zero a b)
  | MoveCol a b => Some (move_col zero a b)
  | _ => None
  end.

(** Write the cells of [m] back into the block of [x]. *)
Definition write_back (x : nat) (h : handle) (m : mat T) (st : store_) : store_ :=
  match h_elem h with
  | None => st
  | Some k => match block (mem st) (Some k) with
              | Some _ => mkStore (vars st) (upd (mem st) k (Some (elem m)))
              | None => st
              end
  end.

(** [temp = new ...; ...; delete elem; elem = temp]. *)
Definition replace_block (x : nat) (h : handle) (m : mat T) (st : store_) : outcome store_ :=
  let '(h', M) := place (mem st) m in
  M' <- delete M (h_elem h) ;;
  Ok (mkStore (set_var x h' (vars st)) M').

(** members that only write cells of the existing block (matrix.cpp:443-470, 609-689, 771-835) *)
Definition call_in_place (f : mat T -> outcome (mat T)) (x : nat) (st : store_) : outcome store_ :=
  h <- lookup st x ;;
  m <- uaf (dangling (mem st) h) (f (view (mem st) h)) ;;
  Ok (write_back x h m st).

(** members that allocate a new block, copy and delete the old one (matrix.cpp:366-426, 472-510, 528-607) *)
Definition call_realloc (f : mat T -> outcome (mat T)) (x : nat) (st : store_) : outcome store_ :=
  h <- lookup st x ;;
  m <- uaf (dangling (mem st) h) (f (view (mem st) h)) ;;
  replace_block x h m st.

(** matrix.cpp:366-426. *)
Definition call_resize (r c : Z) : nat -> store_ -> outcome store_ :=
  call_realloc (resize zero r c).

(** matrix.cpp:472-510, 528-607: nothing happens when the size is the same. *)
Definition call_set_rows (r : Z) (x : nat) (st : store_) : outcome store_ :=
  h <- lookup st x ;;
  if r <? 0 then Exit 1 else if r =? h_rows h then Ok st else call_realloc (set_rows zero r) x st.
(** matrix.cpp:528-567 set_cols *)
Definition call_set_cols (c : Z) (x : nat) (st : store_) : outcome store_ :=
  h <- lookup st x ;;
  if c <? 0 then Exit 1 else if c =? h_cols h then Ok st else call_realloc (set_cols zero c) x st.
(** matrix.cpp:569-607 set_shel *)
Definition call_set_shel (s : Z) (x : nat) (st : store_) : outcome store_ :=
  h <- lookup st x ;;
  if s <? 0 then Exit 1 else if s =? h_shel h then Ok st else call_realloc (set_shel zero s) x st.

(** matrix.cpp:428-437.  [m] is a reference, so it is looked at after the
    resize of [*this]; in [x = x] both are the same object. *)
Definition call_assign (y x : nat) (st : store_) : outcome store_ :=
  hm <- lookup st y ;;
  st1 <- call_resize (h_rows hm) (h_cols hm) x st ;;
  hm1 <- lookup st1 y ;;
  let m := view (mem st1) hm1 in
  h1 <- lookup st1 x ;;
  t <- uaf (dangling (mem st1) hm1)
         (for_up 1 (rows m) (fun i t =>
            for_up 1 (cols m) (fun j t =>
              v <- get_elem2 m i j ;; set_elem2 v i j t) t) (view (mem st1) h1)) ;;
  Ok (write_back x h1 t st1).

(** one member function call *)
Definition call (ch : change) (x : nat) (st : store_) : outcome store_ :=
  match ch with
  | Resize r c => call_resize r c x st
  | SetRows r => call_set_rows r x st
  | SetCols c => call_set_cols c x st
  | SetShel s => call_set_shel s x st
  | AssignFrom y => call_assign y x st
  | _ => match in_place ch with
         | Some f => call_in_place f x st
         | None => Ok st
         end
  end.

(** Statements of a program. *)
Inductive stmt :=
| Declare (x : nat) (c : ctor)      (* Matrix x(...); *)
| CopyInit (x y : nat)              (* Matrix x(y);  Matrix x = y; passing y by value *)
| ResultInit (x : nat) (f : func)   (* Matrix x = f(...); *)
| Change (x : nat) (ch : change).   (* x.f(...);  x = y; *)

(** A constructed object; Matrix(0) stores nullptr (matrix.cpp:310-314). *)
Definition declare (x : nat) (c : ctor) (m : mat T) (st : store_) : store_ :=
  match c with
  | New1 0 => mkStore (set_var x (mkHandle (rows m) (cols m) (shel m) None) (vars st)) (mem st)
  | _ => let '(h, M) := place (mem st) m in mkStore (set_var x h (vars st)) M
  end.

(** one statement of a program: constructions (matrix.cpp:241-364), copy construction (the implicit one), results of the free functions (17-169, 204-239), member calls *)
Definition exec (s : stmt) (st : store_) : outcome store_ :=
  match s with
  | Declare x c => m <- construct c ;; Ok (declare x c m st)
  | CopyInit x y => h <- lookup st y ;; Ok (mkStore (set_var x h (vars st)) (mem st))
  | ResultInit x f =>
      m <- apply_func st f ;;
      let '(h, M) := place (mem st) m in Ok (mkStore (set_var x h (vars st)) M)
  | Change x ch => call ch x st
  end.

(** One statement of a running program: it returns, or it throws and the
    exception is caught by the caller.  A throwing in-place function may have
    written some of the cells already (MatrixModel.v does not say which): any
    contents of the block are allowed.  The other functions throw before they
    change anything. *)
Inductive step : store_ -> stmt -> store_ -> Prop :=
| step_ok st s st' : exec s st = Ok st' -> step st s st'
| step_caught st s e : exec s st = Throw e ->
    (forall x ch, s = Change x ch -> in_place ch = None) -> step st s st
| step_caught_in_place st x ch f e h m :
    in_place ch = Some f -> exec (Change x ch) st = Throw e ->
    vars st x = Some h ->
    length (elem m) = length (elem (view (mem st) h)) ->
    step st (Change x ch) (write_back x h m st).

(** a history of statements *)
Inductive steps : store_ -> list stmt -> store_ -> Prop :=
| steps_nil st : steps st [] st
| steps_cons st s st1 l st2 : step st s st1 -> steps st1 l st2 -> steps st (s :: l) st2.

(** ** Accessors *)

Inductive query :=
| GetRows | GetCols | GetShel | TotalElem
| GetElem0 | GetElem1 (r : Z) | GetElem2 (r c : Z) | GetElem3 (r c s : Z)
| GetRowVec (r : Z) | GetColVec (c : Z).

(** Either an int or doubles. *)
Definition answer : Type := Z + list T.

(** what the const members answer on the contents of the object *)
Definition ask_view (q : query) (m : mat T) : outcome answer :=
  match q with
  | GetRows => Ok (inl (rows m))
  | GetCols => Ok (inl (cols m))
  | GetShel => Ok (inl (shel m))
  | TotalElem => n <- total_elem m ;; Ok (inl n)
  | GetElem0 => v <- get_elem0 m ;; Ok (inr [v])
  | GetElem1 r => v <- get_elem1 m r ;; Ok (inr [v])
  | GetElem2 r c => v <- get_elem2 m r c ;; Ok (inr [v])
  | GetElem3 r c s => v <- get_elem3 m r c s ;; Ok (inr [v])
  | GetRowVec r => v <- get_row m r ;; Ok (inr v)
  | GetColVec c => v <- get_col m c ;; Ok (inr v)
  end.

(** matrix.cpp:512-526, 691-769 on the variable [x]. *)
Definition ask (q : query) (x : nat) (st : store_) : outcome answer :=
  h <- lookup st x ;; uaf (dangling (mem st) h) (ask_view q (view (mem st) h)).
End Heap.
Arguments store_ T : clear implicits.
Arguments stmt T : clear implicits.
Arguments change T : clear implicits.
Arguments ctor T : clear implicits.
