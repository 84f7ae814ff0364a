(** * Specification vocabulary for C07 *)
From Verif Require Export HeapModel.

(** The variable a statement declares or changes. *)
Definition target {T} (s : stmt T) : nat :=
  match s with
  | Declare x _ => x
  | CopyInit x _ => x
  | ResultInit x _ => x
  | Change x _ => x
  end.

(** [works_on W s]: the statement declares or changes only variables in [W],
    and copy-constructs only from variables in [W].  (It may read any variable.) *)
Definition works_on {T} (W : nat -> Prop) (s : stmt T) : Prop :=
  W (target s) /\ (forall x y, s = CopyInit x y -> W y).

(** [W] is [b] together with some names not in use yet, and not [a]. *)
Definition around {T} (st : store_ T) (a b : nat) (W : nat -> Prop) : Prop :=
  W b /\ ~ W a /\ forall w, W w -> w = b \/ vars st w = None.

(** A program state some program reaches. *)
Definition reachable {T} (A : arith T) (st : store_ T) : Prop :=
  exists prog, steps A empty_store prog st.

(** The functions that write through the object's own block. *)
Definition keeps_block {T} (ch : change T) : Prop :=
  match ch with
  | Resize _ _ | SetRows _ | SetCols _ | SetShel _ | AssignFrom _ => False
  | _ => True
  end.

(** ** Programs in which every variable has a matrix of its own *)
Definition values (T : Type) := nat -> option (mat T).
Definition no_values {T} : values T := fun _ => None.
Definition put {T} (x : nat) (m : mat T) (vs : values T) : values T := fun y => if Nat.eqb y x then Some m else vs y.
Definition value_of {T} (vs : values T) (x : nat) : outcome (mat T) :=
  match vs x with Some m => Ok m | None => Undef Uninitialised end.

Section Values.
Context {T : Type}.
Variable A : arith T.
Notation zero := (a_zero A).
Implicit Types (vs : values T) (m : mat T).

Definition v_ctor (c : ctor T) : outcome (mat T) :=
  match c with
  | New0 => Matrix_new0 zero
  | OfVec v => Matrix_of_vec v
  | OfVecs vv => Matrix_of_vecs vv
  | New1 r => Matrix_new1 zero r
  | New2 r c => Matrix_new2 zero r c
  | New3 r c s => Matrix_new3 zero r c s
  end.
Definition v_func vs (f : func) : outcome (mat T) :=
  match f with
  | FCopy y => m <- value_of vs y ;; Matrix_copy zero m
  | FInvert y => m <- value_of vs y ;; invert zero m
  | FGetRow y r => m <- value_of vs y ;; getRow zero m r
  | FGetCol y c => m <- value_of vs y ;; getCol zero m c
  | FDiag y => m <- value_of vs y ;; Matrix_diag zero m
  | FCatRows y z => m <- value_of vs y ;; n <- value_of vs z ;; Matrix_concatenate_rows zero m n
  | FCatCols y z => m <- value_of vs y ;; n <- value_of vs z ;; Matrix_concatenate_cols zero m n
  | FMul y z => m <- value_of vs y ;; n <- value_of vs z ;; mat_mul A m n
  end.
Definition v_change vs (ch : change T) (m : mat T) : outcome (mat T) :=
  match ch with
  | SetElem0 v => set_elem0 v m
  | SetElem1 v r => set_elem1 v r m
  | SetElem2 v r c => set_elem2 v r c m
  | SetElem3 v r c s => set_elem3 v r c s m
  | SetRow row r => set_row zero row r m
  | SetCol col c => set_col zero col c m
  | SwapRow a b => swap_row zero a b m
  | SwapCol a b => swap_col zero a b m
  | MoveRow a b => move_row zero a b m
  | MoveCol a b => move_col zero a b m
  | Resize r c => resize zero r c m
  | SetRows r => set_rows zero r m
  | SetCols c => set_cols zero c m
  | SetShel s => set_shel zero s m
  | AssignFrom y => n <- value_of vs y ;; assign zero m n
  end.
Definition v_exec (s : stmt T) vs : outcome (values T) :=
  match s with
  | Declare x c => m <- v_ctor c ;; Ok (put x m vs)
  | CopyInit x y => m <- value_of vs y ;; Ok (put x m vs)
  | ResultInit x f => m <- v_func vs f ;; Ok (put x m vs)
  | Change x ch => m <- value_of vs x ;; m' <- v_change vs ch m ;; Ok (put x m' vs)
  end.
Fixpoint v_run (prog : list (stmt T)) vs : outcome (values T) :=
  match prog with [] => Ok vs | s :: l => vs1 <- v_exec s vs ;; v_run l vs1 end.
(** the program on the heap *)
Fixpoint h_run (prog : list (stmt T)) (st : store_ T) : outcome (store_ T) :=
  match prog with [] => Ok st | s :: l => st1 <- exec A s st ;; h_run l st1 end.
End Values.

(** no copy construction, and no variable is assigned to itself *)
Definition plain {T} (s : stmt T) : Prop :=
  match s with CopyInit _ _ => False | Change x (AssignFrom y) => x <> y | _ => True end.

(** the same kind of outcome: both return, and then [R]; or both throw the same; ... *)
Definition alike_outcome {X Y} (R : X -> Y -> Prop) (o : outcome X) (o' : outcome Y) : Prop :=
  match o, o' with
  | Ok x, Ok y => R x y
  | Throw e, Throw e' => e = e'
  | Exit n, Exit n' => n = n'
  | Undef u, Undef u' => u = u'
  | NoFuel, NoFuel => True
  | _, _ => False
  end.
