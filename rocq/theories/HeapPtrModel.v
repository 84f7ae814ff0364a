(** * Model of Matrix::get_elem_ptr (src/libcatnip/matrix.cpp:735-737, matrix.hpp:48)

    The pointer handed out leads into the block of the object: it is the block
    and a position.  Forming a pointer outside the block (one past its end
    excepted), from a null pointer or into a freed block is undefined in C++. *)
From Verif Require Export HeapModel.

(** the double* of matrix.cpp:735-737: a block and an offset *)
Record pointer := mkPtr { p_block : nat; p_off : Z }.

Section Ptr.
Context {T : Type}.
Variable A : arith T.
Implicit Types (st : store_ T) (p : pointer).

(** matrix.cpp:735-737: [&elem[index(r, c, 1)]]; nothing is checked *)
Definition get_elem_ptr (x : nat) (r c : Z) st : outcome pointer :=
  h <- lookup st x ;;
  k <- index (view (mem st) h) r c 1 ;;
  match h_elem h with
  | None => Undef OutOfBounds
  | Some b => match block (mem st) (Some b) with
              | None => Undef UseAfterFree
              | Some l => if (0 <=? k) && (k <=? Z.of_nat (length l)) then Ok (mkPtr b k) else Undef OutOfBounds
              end
  end.

(** the caller's [*p] and [*p = v] *)
Definition ptr_read p st : outcome T :=
  match block (mem st) (Some (p_block p)) with
  | Some l => rd l (p_off p)
  | None => Undef UseAfterFree
  end.
(** [*p = v] of the caller (matrix.cpp:735-737 gives the pointer) *)
Definition ptr_write p (v : T) st : outcome (store_ T) :=
  match block (mem st) (Some (p_block p)) with
  | Some l => l' <- wr l (p_off p) v ;; Ok (mkStore (vars st) (upd (mem st) (p_block p) (Some l')))
  | None => Undef UseAfterFree
  end.

(** programs that also write through pointers they hold *)
Inductive action := Stmt (s : stmt T) | Write (p : pointer) (v : T).
(** one statement, or a write through a held pointer *)
Inductive act : store_ T -> action -> store_ T -> Prop :=
| act_stmt st s st' : step A st s st' -> act st (Stmt s) st'
| act_write st p v st' : ptr_write p v st = Ok st' -> act st (Write p v) st'.
(** a history of those *)
Inductive acts : store_ T -> list action -> store_ T -> Prop :=
| acts_nil st : acts st [] st
| acts_cons st a st1 l st2 : act st a st1 -> acts st1 l st2 -> acts st (a :: l) st2.
End Ptr.
Arguments action T : clear implicits.
